(** Runs, seen from one interface. *)

From Coq Require Import Permutation.
From Verif Require Import PTextIp PTextNum Frame Exec SpecExec PParse PMatch PCmd PPair.

(** The events of one interface. *)
Definition on (ifn : string) (ev : list event) : list event :=
  filter (fun x => match event_if x with Some i => String.eqb i ifn | None => false end) ev.

Definition about (ifn : string) (ev : list event) : Prop := Forall (fun x => event_if x = Some ifn) ev.

Lemma on_app : forall n a b, on n (a ++ b) = on n a ++ on n b.
Proof. intros. apply filter_app. Qed.

Lemma on_about : forall n ev, about n ev -> on n ev = ev.
Proof. intros n ev H. induction H as [|x ev H1 H IH]; [auto|]. unfold on in *. cbn [filter]. rewrite H1, String.eqb_refl, IH. auto. Qed.

Lemma on_other : forall n m ev, about m ev -> m <> n -> on n ev = [].
Proof. intros n m ev H Hn. induction H as [|x ev H1 H IH]; [auto|]. unfold on in *. cbn [filter]. rewrite H1, IH. replace (String.eqb m n) with false; [auto|]. symmetry. apply String.eqb_neq. auto. Qed.

(** *** What does not change *)
Definition same_cmd (c c' : cmd) : Prop :=
  c_type c' = c_type c /\ c_name c' = c_name c /\ c_arg0 c' = c_arg0 c /\ c_frame c' = c_frame c /\ c_buf c' = c_buf c /\ c_mask c' = c_mask c.

Lemma same_refl : forall c, same_cmd c c.
Proof. intros c. repeat split. Qed.

Lemma same_trans : forall a b c, same_cmd a b -> same_cmd b c -> same_cmd a c.
Proof. unfold same_cmd. intros a b c H K. intuition congruence. Qed.

Definition evolves (r r' : resource) : Prop := Forall2 same_cmd (r_cmds r) (r_cmds r').

Lemma Forall2_same_refl : forall cs, Forall2 same_cmd cs cs.
Proof. induction cs; constructor; auto using same_refl. Qed.

Lemma Forall2_same_trans : forall a b c, Forall2 same_cmd a b -> Forall2 same_cmd b c -> Forall2 same_cmd a c.
Proof.
  intros a b c H. revert c. induction H as [|x y a b H1 H IH]; intros c K; [auto|]. destruct c as [|z c]; [inversion K|].
  assert (same_cmd y z) by (inversion K; auto). assert (Forall2 same_cmd b c) by (inversion K; auto). constructor; [eapply same_trans; eauto|auto].
Qed.

Lemma evolves_refl : forall r, evolves r r.
Proof. intros r. apply Forall2_same_refl. Qed.

Lemma evolves_trans : forall a b c, evolves a b -> evolves b c -> evolves a c.
Proof. unfold evolves. intros a b c. apply Forall2_same_trans. Qed.

Lemma evolves_name : forall r r', evolves r r' -> r_name r' = r_name r.
Proof. intros r r' H. unfold evolves, r_name in *. inversion H as [|c c' l l' H1]; [auto|]. destruct H1 as [_ [_ [H1 _]]]. rewrite H1. auto. Qed.

Definition homog (r : resource) : Prop := forall c, In c (r_cmds r) -> str_of (c_arg0 c) = r_name r.

Lemma Forall2_in_r : forall A B (R : A -> B -> Prop) l l', Forall2 R l l' -> forall y, In y l' -> exists x, In x l /\ R x y.
Proof. intros A B R l l' H. induction H as [|x y l l' H1 H IH]; intros z Hz; [destruct Hz|]. destruct Hz as [<-|Hz]; [exists x; split; [left|]; auto|]. destruct (IH _ Hz) as [w [K1 K2]]. exists w. split; [right|]; auto. Qed.

Lemma evolves_homog : forall r r', evolves r r' -> homog r -> homog r'.
Proof.
  intros r r' H HH c Hc. rewrite (evolves_name _ _ H). destruct (Forall2_in_r _ _ _ _ _ H _ Hc) as [c0 [H1 [_ [_ [H2 _]]]]]. rewrite H2. apply HH. auto.
Qed.

Lemma evolves_has_rx : forall r r', evolves r r' -> has_rx r' = has_rx r.
Proof.
  intros r r' H. unfold has_rx, evolves in *. induction H as [|c c' l l' H1 H IH]; [auto|]. cbn [existsb]. rewrite IH. destruct H1 as [H1 _]. rewrite H1. auto.
Qed.

Lemma Forall2_app_same : forall l c r, Forall2 same_cmd (l ++ c :: r) (l ++ set_done c :: r).
Proof. intros l c r. apply Forall2_app; [apply Forall2_same_refl|]. constructor; [repeat split|apply Forall2_same_refl]. Qed.

(** *** One frame *)
Definition verdict (c : cmd) (b : buf) : out bool :=
  match c_buf c with
  | None => Ret false
  | Some e => match c_frame c with None => Crash Null_deref | Some f => bequal_mask b e (c_mask c) (fr_padding f) end
  end.

Lemma verdict_accepts : forall c b v, verdict c b = Ret v -> (v = true <-> accepts c b).
Proof.
  intros c b v H. unfold verdict in H. unfold accepts. destruct (c_buf c) as [e|].
  2: { assert (v = false) by congruence. subst. split; [discriminate|]. intros [_ [x [X _]]]. discriminate. }
  destruct (c_frame c) as [f|]; [|discriminate]. unfold bequal_mask in H. destruct (Z.ltb_spec (fr_padding f) 0) as [Hp|Hp].
  { assert (v = false) by congruence. subst. split; [discriminate|]. intros [[f0 [X Y]] _]. assert (f0 = f) by congruence. subst. lia. }
  destruct (Z.eqb_spec (zlen b) (zlen e + fr_padding f)) as [Hl|Hl]; cbn [negb] in H.
  2: { assert (v = false) by congruence. subst. split; [discriminate|]. intros [[f0 [X Y]] [x [X1 [X2 _]]]]. assert (f0 = f) by congruence. assert (x = e) by congruence. subst. unfold zlen in *. lia. }
  destruct (Z.eq_dec (fr_padding f) 0) as [Hz|Hz].
  - assert (Hlen : length b = length e) by (unfold zlen in *; lia). destruct (c_mask c) as [m|].
    + destruct (mask_loop_spec b 0 e m ltac:(lia) ltac:(lia)) as [r [Er Hs]]. assert (v = r) by congruence. subst v. rewrite Hs. cbn [Z.to_nat Nat.add].
      assert (HM : forall k, mask_byte m (0 + Z.of_nat k) = nth k m 255).
      { intros k. unfold mask_byte. rewrite Z.add_0_l, Nat2Z.id. destruct (Z.leb_spec (zlen m) (Z.of_nat k)); [rewrite nth_overflow; unfold zlen in *; auto; lia|apply nth_indep; unfold zlen in *; lia]. }
      split.
      * intros K. split; [exists f; auto|]. exists e. split; [auto|]. split; [auto|]. intros i Hi. rewrite <- HM. apply K. lia.
      * intros [_ [x [X1 [X2 X3]]]] k Hk. assert (x = e) by congruence. subst x. rewrite HM. apply X3. lia.
    + unfold memcmp_eq in H. replace ((zlen b <? zlen b) || (zlen e <? zlen b)) with false in H by lia. assert (v = forallb (fun p => fst p =? snd p) (combine (firstn (Z.to_nat (zlen b)) b) (firstn (Z.to_nat (zlen b)) e))) by congruence. subst v. clear H.
      unfold zlen. rewrite Nat2Z.id, firstn_all. rewrite Hlen, firstn_all. rewrite forallb_combine_eq by auto. split.
      * intros ->. split; [exists f; auto|]. exists e. auto.
      * intros [_ [x [X1 [X2 X3]]]]. congruence.
  - destruct v.
    + exfalso. apply (padding_never_matches b e (c_mask c) (Z.to_nat (fr_padding f)) ltac:(lia)).
      unfold bequal_mask. rewrite Z2Nat.id by lia. replace (fr_padding f <? 0) with false by lia. replace (zlen b =? zlen e + fr_padding f) with true by lia. cbn [negb]. exact H.
    + split; [discriminate|]. intros [[f0 [X Y]] _]. assert (f0 = f) by congruence. subst. lia.
Qed.

Lemma match_cmds_cons : forall b c r, match_cmds b (c :: r) =
  if c_done c then '(m, r') <- match_cmds b r;; Ret (m, c :: r')
  else v <- verdict c b;; if v then Ret (Some c, set_done c :: r) else '(m, r') <- match_cmds b r;; Ret (m, c :: r').
Proof. intros b c r. cbn [match_cmds]. unfold verdict. destruct (c_buf c), (c_done c), (c_frame c); reflexivity. Qed.

Lemma match_spec : forall b cs hit cs', match_cmds b cs = Ret (hit, cs') ->
  (hit = None /\ cs' = cs /\ forall c, In c cs -> c_done c = false -> ~ accepts c b) \/
  (exists l c r, hit = Some c /\ cs = l ++ c :: r /\ cs' = l ++ set_done c :: r /\ c_done c = false /\ accepts c b /\
     forall x, In x l -> c_done x = false -> ~ accepts x b).
Proof.
  induction cs as [|c cs IH]; intros hit cs' H.
  - cbn in H. left. assert (hit = None) by congruence. assert (cs' = []) by congruence. subst. split; [auto|split; [auto|intros c []]].
  - rewrite match_cmds_cons in H.
    assert (K : (c_done c = false -> ~ accepts c b) -> forall m r', match_cmds b cs = Ret (m, r') -> hit = m -> cs' = c :: r' ->
      (hit = None /\ cs' = c :: cs /\ forall c0, In c0 (c :: cs) -> c_done c0 = false -> ~ accepts c0 b) \/
      (exists l c0 r, hit = Some c0 /\ c :: cs = l ++ c0 :: r /\ cs' = l ++ set_done c0 :: r /\ c_done c0 = false /\ accepts c0 b /\ forall x, In x l -> c_done x = false -> ~ accepts x b)).
    { intros Hc m r' E -> ->. destruct (IH _ _ E) as [[-> [-> H3]]|[l [c0 [r [-> [-> [-> [H3 [H4 H5]]]]]]]]].
      - left. split; [auto|split; [auto|]]. intros x [<-|Hx]; auto.
      - right. exists (c :: l), c0, r. split; [auto|]. split; [auto|split; [auto|split; [auto|split; [auto|]]]]. intros x [<-|Hx]; auto. }
    destruct (c_done c) eqn:Ed.
    + binv H. destruct a as [m r']. apply (K ltac:(discriminate) m r'); congruence.
    + binv H. pose proof (verdict_accepts _ _ _ E) as HV. destruct a.
      * assert (hit = Some c) by congruence. assert (cs' = set_done c :: cs) by congruence. subst. right. exists [], c, cs. split; [auto|]. split; [auto|split; [auto|split; [auto|split; [apply HV; auto|intros x []]]]].
      * binv H. destruct a as [m r']. apply (K ltac:(intros _ X; apply HV in X; discriminate) m r'); congruence.
Qed.

Lemma match_same : forall b cs hit cs', match_cmds b cs = Ret (hit, cs') -> Forall2 same_cmd cs cs'.
Proof.
  intros b cs hit cs' H. destruct (match_spec _ _ _ _ H) as [[_ [-> _]]|[l [c [r [_ [-> [-> _]]]]]]]; [apply Forall2_same_refl|apply Forall2_app_same].
Qed.

(** *** One transmission *)
Definition pending_tx (c : cmd) : bool := is_tx c && negb (c_done c).

(** The command after a send. *)
Definition sent (ok : bool) (c : cmd) : cmd :=
  let c1 := set_repeat (u32 (c_repeat c - 1)) c in if ok && (c_repeat c1 =? 0) then set_done c1 else c1.

Definition send_events (ok : bool) (c : cmd) : list event :=
  EvSend (str_of (c_arg0 c)) (frame_of c) ok :: (if ok && (u32 (c_repeat c - 1) =? 0) then [EvTx (str_of (c_arg0 c)) (frame_of c) (c_name c)] else []).

Lemma tx_one_spec : forall ok cs o, tx_one ok cs = Ret o ->
  match o with
  | None => filter pending_tx cs = []
  | Some (cs', more, ev) => exists l c r, cs = l ++ c :: r /\ filter pending_tx l = [] /\ pending_tx c = true /\
      cs' = l ++ sent ok c :: r /\ more = (0 <? u32 (c_repeat c - 1)) /\ ev = send_events ok c
  end.
Proof.
  intros ok. induction cs as [|c cs IH]; intros o H; cbn [tx_one] in H.
  - assert (o = None) by congruence. subst. auto.
  - change (cmd_type_eqb (c_type c) CT_tx && negb (c_done c)) with (pending_tx c) in H. destruct (pending_tx c) eqn:Ep.
    + destruct (c_buf c) as [b|] eqn:Eb; [|discriminate]. apply ret_inj in H. subst o. exists [], c, cs. split; [auto|]. split; [auto|]. split; [auto|].
      unfold sent, send_events, frame_of. rewrite Eb. cbn [set_repeat c_repeat app]. auto.
    + binv H. apply ret_inj in H. subst o. specialize (IH _ E). destruct a as [[[r' more] ev]|].
      * destruct IH as [l [c0 [r [-> [H1 [H2 [-> H4]]]]]]]. exists (c :: l), c0, r. split; [auto|]. split; [cbn [filter]; rewrite Ep; auto|auto].
      * cbn [filter]. rewrite Ep. auto.
Qed.

Lemma tx_one_none : forall ok cs, filter pending_tx cs = [] -> tx_one ok cs = Ret None.
Proof.
  intros ok. induction cs as [|c cs IH]; intros H; [auto|]. cbn [tx_one filter] in *. change (cmd_type_eqb (c_type c) CT_tx && negb (c_done c)) with (pending_tx c).
  destruct (pending_tx c); [discriminate|]. rewrite IH; auto.
Qed.

Lemma sent_same : forall ok c, same_cmd c (sent ok c).
Proof. intros ok c. unfold sent. destruct (ok && _); repeat split. Qed.

Lemma tx_same : forall ok cs cs' more ev, tx_one ok cs = Ret (Some (cs', more, ev)) -> Forall2 same_cmd cs cs'.
Proof.
  intros ok cs cs' more ev H. destruct (tx_one_spec _ _ _ H) as [l [c [r [-> [_ [_ [-> _]]]]]]]. apply Forall2_app; [apply Forall2_same_refl|].
  constructor; [apply sent_same|apply Forall2_same_refl].
Qed.

(** *** Passes over all interfaces *)
Inductive pass (P : nat -> resource -> resource -> list event -> Prop) : nat -> list resource -> list resource -> list event -> Prop :=
| pass_nil : forall i, pass P i [] [] []
| pass_cons : forall i r r' rs rs' ev1 ev2, P i r r' ev1 -> pass P (S i) rs rs' ev2 -> pass P i (r :: rs) (r' :: rs') (ev1 ++ ev2).

Lemma pass_mono : forall (P Q : nat -> resource -> resource -> list event -> Prop), (forall i r r' ev, P i r r' ev -> Q i r r' ev) ->
  forall i rs rs' ev, pass P i rs rs' ev -> pass Q i rs rs' ev.
Proof. intros P Q HPQ i rs rs' ev H. induction H; constructor; auto. Qed.

(** What a step may do. *)
Definition local (P : nat -> resource -> resource -> list event -> Prop) : Prop :=
  forall i r r' ev, homog r -> P i r r' ev -> evolves r r' /\ about (r_name r) ev.

Lemma pass_evolves : forall P i rs rs' ev, local P -> Forall homog rs -> pass P i rs rs' ev ->
  Forall homog rs' /\ map r_name rs' = map r_name rs /\ Forall2 evolves rs rs' /\ Forall (fun x => exists n, event_if x = Some n /\ In n (map r_name rs)) ev.
Proof.
  intros P i rs rs' ev HL HH H. induction H as [|i r r' rs rs' ev1 ev2 H1 H IH].
  - repeat split; constructor.
  - pose proof (Forall_inv HH) as HR. destruct (IH (Forall_inv_tail HH)) as [I1 [I2 [I3 I4]]]. destruct (HL _ _ _ _ HR H1) as [E1 E2]. split; [|split; [|split]].
    + constructor; [eapply evolves_homog; eauto|auto].
    + cbn [map]. rewrite I2, (evolves_name _ _ E1). auto.
    + constructor; auto.
    + apply Forall_app. split.
      * apply Forall_forall. intros x Hx. unfold about in E2. rewrite Forall_forall in E2. exists (r_name r). split; [auto|left; auto].
      * eapply Forall_impl; [|exact I4]. intros x [n [X1 X2]]. exists n. split; [auto|right; auto].
Qed.

Lemma on_none : forall n ns ev, Forall (fun x => exists m, event_if x = Some m /\ In m ns) ev -> ~ In n ns -> on n ev = [].
Proof.
  intros n ns ev H Hn. induction H as [|x ev [m [H1 H2]] H IH]; [auto|]. unfold on in *. cbn [filter]. rewrite H1, IH. replace (String.eqb m n) with false; [auto|].
  symmetry. apply String.eqb_neq. intros ->. auto.
Qed.

Lemma pass_nth : forall P i rs rs' ev, local P -> Forall homog rs -> NoDup (map r_name rs) -> pass P i rs rs' ev ->
  forall j r, nth_error rs j = Some r -> exists r', nth_error rs' j = Some r' /\ P (i + j)%nat r r' (on (r_name r) ev).
Proof.
  intros P i rs rs' ev HL HH HN H. induction H as [|i r r' rs rs' ev1 ev2 H1 H IH]; intros j r0 Hj; [destruct j; discriminate|].
  pose proof (Forall_inv HH) as HR. pose proof (Forall_inv_tail HH) as HT. cbn [map] in HN. apply NoDup_cons_iff in HN. destruct HN as [HN1 HN2].
  destruct (HL _ _ _ _ HR H1) as [E1 E2]. destruct (pass_evolves _ _ _ _ _ HL HT H) as [_ [_ [_ E3]]]. destruct j as [|j]; cbn [nth_error] in *.
  - assert (r0 = r) by congruence. subst r0. exists r'. split; [auto|]. rewrite Nat.add_0_r, on_app, (on_about _ _ E2), (on_none _ _ _ E3) by auto. rewrite app_nil_r. auto.
  - destruct (IH HT HN2 j r0 Hj) as [r1 [F1 F2]]. exists r1. split; [auto|]. replace (i + S j)%nat with (S i + j)%nat by lia. rewrite on_app, (on_other _ _ _ E2); [auto|].
    intros E. apply HN1. rewrite E. apply in_map. eapply nth_error_In; eauto.
Qed.

(** *** Receiving *)
Definition rx_step (b : buf) (r r' : resource) (ev : list event) : Prop :=
  exists hit cs, match_cmds b (r_cmds r) = Ret (hit, cs) /\ r' = MkRes cs (match hit with Some _ => r_err r | None => r_err r + 1 end) /\
    ev = [match hit with Some c => EvRxOk (str_of (c_arg0 c)) b (c_name c) (c_mask c) | None => EvRxErr (r_name r) b end].

Definition rx_part (rd : round) (i : nat) (r r' : resource) (ev : list event) : Prop :=
  (has_rx r = true /\ exists m b, rd_rx rd i = Some m /\ rx_frame m = Ret (Some b) /\ rx_step b r r' ev) \/
  (r' = r /\ ev = [] /\ (has_rx r = false \/ rd_rx rd i = None \/ exists m, rd_rx rd i = Some m /\ rx_frame m = Ret None)).

Lemma rx_local : forall rd, local (rx_part rd).
Proof.
  intros rd i r r' ev HH [[_ [m [b [_ [_ [hit [cs [H1 [-> ->]]]]]]]]]|[-> [-> _]]].
  - split; [unfold evolves; eapply match_same; eauto|]. constructor; [|constructor]. destruct (match_spec _ _ _ _ H1) as [[-> _]|[l [c [q [-> [E _]]]]]]; [reflexivity|].
    cbn [event_if]. f_equal. apply HH. rewrite E. apply in_or_app. right. left. auto.
  - split; [apply evolves_refl|constructor].
Qed.

Opaque rx_frame.

Lemma rx_all_pass : forall rd rs i rs' ev, rx_all rd i rs = Ret (rs', ev) -> pass (rx_part rd) i rs rs' ev.
Proof.
  intros rd. induction rs as [|r rs IH]; intros i rs' ev H; cbn [rx_all] in H.
  - apply ret_inj in H. apply pair_inj in H. destruct H as [<- <-]. constructor.
  - binv H. destruct a as [r1 ev1]. binv H. destruct a as [rest1 ev2]. apply ret_inj in H. apply pair_inj in H. destruct H as [<- <-]. constructor; [|apply IH; auto].
    clear E0 IH. unfold rx_part. destruct (has_rx r) eqn:Eh; [|apply ret_inj in E; apply pair_inj in E; destruct E as [<- <-]; auto].
    destruct (rd_rx rd i) as [m|] eqn:Em; [|apply ret_inj in E; apply pair_inj in E; destruct E as [<- <-]; right; auto].
    unfold rx_one in E. binv E. destruct a as [b|]; [|apply ret_inj in E; apply pair_inj in E; destruct E as [<- <-]; right; split; [auto|split; [auto|right; right; exists m; auto]]].
    binv E. destruct a as [hit cs]. left. split; [auto|]. exists m, b. split; [auto|split; [auto|]]. exists hit, cs. split; [auto|]. destruct hit; apply ret_inj in E; apply pair_inj in E; destruct E as [<- <-]; auto.
Qed.

(** *** Transmitting *)
Definition tx_step (ok more : bool) (r r' : resource) (ev : list event) : Prop :=
  exists cs, tx_one ok (r_cmds r) = Ret (Some (cs, more, ev)) /\ r' = MkRes cs (r_err r).

(** One interface in one pass; [more] says that there will be another pass. *)
Definition tx_part (send : nat -> bool) (more : bool) (w : bool) (r r' : resource) (ev : list event) : Prop :=
  (w = true /\ exists k own, tx_step (send k) own r r' ev /\ (own = true -> more = true)) \/
  (r' = r /\ ev = [] /\ (w = false \/ filter pending_tx (r_cmds r) = [])).

Lemma about_sent : forall ok more r r' ev, homog r -> tx_step ok more r r' ev -> evolves r r' /\ about (r_name r) ev.
Proof.
  intros ok more r r' ev HH [cs [H1 ->]]. split; [unfold evolves; eapply tx_same; eauto|]. apply tx_one_spec in H1. destruct H1 as [l [c [q [H1 [_ [_ [_ [_ ->]]]]]]]].
  assert (HC : str_of (c_arg0 c) = r_name r) by (apply HH; rewrite H1; apply in_or_app; right; left; auto). unfold send_events. rewrite HC. destruct (ok && _); repeat constructor.
Qed.

Lemma tx_local : forall send more wr, local (fun i => tx_part send more (wr i)).
Proof.
  intros send more wr i r r' ev HH [[_ [k [own [H1 _]]]]|[-> [-> _]]]; [eapply about_sent; eauto|split; [apply evolves_refl|constructor]].
Qed.

Lemma tx_pass_pass : forall wr send rs i k rs' k' more ev, tx_pass wr send i k rs = Ret (rs', k', more, ev) ->
  pass (fun i => tx_part send more (wr i)) i rs rs' ev.
Proof.
  intros wr send. induction rs as [|r rs IH]; intros i k rs' k' more ev H; cbn [tx_pass] in H.
  - assert (rs' = []) by congruence. assert (ev = []) by congruence. subst. constructor.
  - assert (HM : forall m1 m2 : bool, (m1 = true -> m2 = true) -> forall i r r' ev, tx_part send m1 (wr i) r r' ev -> tx_part send m2 (wr i) r r' ev).
    { intros m1 m2 Hm j x x' e [[X1 [kk [own [X2 X3]]]]|X]; [left; split; [auto|]; exists kk, own; auto|right; auto]. }
    destruct (wr i) eqn:Ew.
    + binv H. destruct a as [[[cs m] ev0]|].
      * binv H. destruct a as [[[rest1 k1] more1] ev1]. assert (rs' = MkRes cs (r_err r) :: rest1) by congruence. assert (more = m || more1) by congruence. assert (ev = ev0 ++ ev1) by congruence. subst rs' more ev.
        constructor; [|eapply pass_mono; [|eapply IH; eauto]; intros; cbn beta in *; eapply HM; [|eauto]; intros ->; apply orb_true_r].
        rewrite Ew. left. split; [auto|]. exists k, m. split; [exists cs; auto|]. intros ->. auto.
      * binv H. destruct a as [[[rest1 k1] more1] ev1]. assert (rs' = r :: rest1) by congruence. assert (more = more1) by congruence. assert (ev = [] ++ ev1) by (cbn; congruence). subst rs' more ev.
        constructor; [|eapply IH; eauto]. right. split; [auto|split; [auto|right]]. apply tx_one_spec in E. auto.
    + binv H. destruct a as [[[rest1 k1] more1] ev1]. assert (rs' = r :: rest1) by congruence. assert (more = more1) by congruence. assert (ev = [] ++ ev1) by (cbn; congruence). subst rs' more ev.
      constructor; [|eapply IH; eauto]. right. auto.
Qed.

Inductive iters {S : Type} (body : S -> out (S * bool)) : S -> S -> bool -> Prop :=
| iters_last : forall s s' m, body s = Ret (s', m) -> iters body s s' m
| iters_more : forall s s1 s' m, body s = Ret (s1, true) -> iters body s1 s' m -> iters body s s' m.

Lemma iters_trans : forall S (body : S -> out (S * bool)) s s1, iters body s s1 true -> forall s2 m, iters body s1 s2 m -> iters body s s2 m.
Proof.
  intros S body s s1 H. remember true as t. induction H as [s s' m H|s s1 s' m H H1 IH]; intros s2 m2 K; subst; [eapply iters_more; eauto|]. eapply iters_more; eauto.
Qed.

Lemma loop_pow_iters : forall S (body : S -> out (S * bool)) n s s' m, loop_pow n body s = Ret (s', m) -> iters body s s' m.
Proof.
  intros S body. induction n as [|n IH]; intros s s' m H; cbn [loop_pow] in H; [apply iters_last; auto|].
  binv H. destruct a as [s1 more]. destruct more.
  - eapply iters_trans; [apply IH; eauto|apply IH; auto].
  - apply ret_inj in H. apply pair_inj in H. destruct H as [<- <-]. apply IH. auto.
Qed.

(** The transmissions of one interface in one round. *)
Inductive txs (send : nat -> bool) (w : bool) : resource -> resource -> list event -> Prop :=
| txs_last : forall r r' ev, tx_part send false w r r' ev -> txs send w r r' ev
| txs_more : forall r r1 r' ev1 ev2, tx_part send true w r r1 ev1 -> txs send w r1 r' ev2 -> txs send w r r' (ev1 ++ ev2).

Lemma evolves_names : forall rs rs', Forall2 evolves rs rs' -> map r_name rs' = map r_name rs.
Proof. intros rs rs' H. induction H as [|r r' rs rs' H1 H IH]; [auto|]. cbn [map]. rewrite IH, (evolves_name _ _ H1). auto. Qed.

Lemma Forall2_evolves_trans : forall a b c, Forall2 evolves a b -> Forall2 evolves b c -> Forall2 evolves a c.
Proof.
  intros a b c H. revert c. induction H as [|x y a b H1 H IH]; intros c K; [auto|]. destruct c as [|z c]; [inversion K|].
  assert (evolves y z) by (inversion K; auto). assert (Forall2 evolves b c) by (inversion K; auto). constructor; [eapply evolves_trans; eauto|auto].
Qed.

Definition known (ns : list string) (ev : list event) : Prop := Forall (fun x => exists n, event_if x = Some n /\ In n ns) ev.

Lemma iters_txs : forall wr send s s', iters (tx_body wr send) s s' false -> Forall homog (tx_rs s) -> NoDup (map r_name (tx_rs s)) ->
  exists ev, tx_ev s' = tx_ev s ++ ev /\ Forall homog (tx_rs s') /\ Forall2 evolves (tx_rs s) (tx_rs s') /\ known (map r_name (tx_rs s)) ev /\
  forall j r, nth_error (tx_rs s) j = Some r -> exists r', nth_error (tx_rs s') j = Some r' /\ txs send (wr j) r r' (on (r_name r) ev).
Proof.
  intros wr send s s' H. remember false as t. induction H as [s s' m H|s s1 s' m H H1 IH]; intros HH HN; subst.
  - unfold tx_body in H. binv H. destruct a as [[[rs k] more] ev]. apply ret_inj in H. apply pair_inj in H. destruct H as [<- ->]. cbn [tx_ev tx_rs].
    apply tx_pass_pass in E. destruct (pass_evolves _ _ _ _ _ (tx_local send false wr) HH E) as [A1 [A2 [A3 A4]]]. exists ev. split; [auto|]. split; [auto|]. split; [auto|]. split; [auto|].
    intros j r Hj. destruct (pass_nth _ _ _ _ _ (tx_local send false wr) HH HN E j r Hj) as [r' [B1 B2]]. exists r'. split; [auto|]. apply txs_last. auto.
  - unfold tx_body in H. binv H. destruct a as [[[rs k] more] ev]. apply ret_inj in H. apply pair_inj in H. destruct H as [<- ->]. cbn [tx_ev tx_rs] in *.
    apply tx_pass_pass in E. destruct (pass_evolves _ _ _ _ _ (tx_local send true wr) HH E) as [A1 [A2 [A3 A4]]].
    destruct (IH eq_refl A1 ltac:(rewrite A2; auto)) as [ev2 [C1 [C2 [C3 [C4 C5]]]]]. exists (ev ++ ev2). rewrite C1, app_assoc. split; [auto|]. split; [auto|]. split; [eapply Forall2_evolves_trans; eauto|].
    split; [apply Forall_app; split; [auto|rewrite <- A2; auto]|].
    intros j r Hj. destruct (pass_nth _ _ _ _ _ (tx_local send true wr) HH HN E j r Hj) as [r1 [B1 B2]]. destruct (C5 _ _ B1) as [r' [D1 D2]]. exists r'. split; [auto|].
    rewrite on_app. apply txs_more with r1; [exact B2|]. destruct (tx_local send true wr j r r1 _ (proj1 (Forall_forall _ _) HH r (nth_error_In _ _ Hj)) B2) as [X _].
    rewrite <- (evolves_name _ _ X). auto.
Qed.

Opaque loop_pow.

Lemma tx_loop_sim : forall wr send rs rs' ev, tx_loop wr send rs = Ret (rs', ev) -> Forall homog rs -> NoDup (map r_name rs) ->
  Forall homog rs' /\ Forall2 evolves rs rs' /\ known (map r_name rs) ev /\
  forall j r, nth_error rs j = Some r -> exists r', nth_error rs' j = Some r' /\ txs send (wr j) r r' (on (r_name r) ev).
Proof.
  intros wr send rs rs' ev H HH HN. unfold tx_loop in H. binv H. destruct a as [s more]. destruct more; [discriminate|]. apply ret_inj in H. apply pair_inj in H. destruct H as [<- <-].
  apply loop_pow_iters in E. destruct (iters_txs _ _ _ _ E HH HN) as [ev [C1 [C2 [C3 [C4 C5]]]]]. cbn [tx_rs tx_ev app] in *. rewrite C1. auto.
Qed.

(** *** Rounds *)
Definition round_step (i : nat) (rd : round) (r r' : resource) (ev : list event) : Prop :=
  exists r1 ev1 ev2, rx_part rd i r r1 ev1 /\ txs (rd_send rd) (has_tx r && rd_wr rd i) r1 r' ev2 /\ ev = ev1 ++ ev2.

Lemma process_sim : forall rd rs rs' ev, process rd rs = Ret (rs', ev) -> Forall homog rs -> NoDup (map r_name rs) ->
  Forall homog rs' /\ Forall2 evolves rs rs' /\ known (map r_name rs) ev /\
  forall j r, nth_error rs j = Some r -> exists r', nth_error rs' j = Some r' /\ round_step j rd r r' (on (r_name r) ev).
Proof.
  intros rd rs rs' ev H HH HN. unfold process in H. binv H. destruct a as [rs1 ev1]. binv H. destruct a as [rs2 ev2]. apply ret_inj in H. apply pair_inj in H. destruct H as [<- <-].
  apply rx_all_pass in E. destruct (pass_evolves _ _ _ _ _ (rx_local rd) HH E) as [A1 [A2 [A3 A4]]].
  destruct (tx_loop_sim _ _ _ _ _ E0 A1 ltac:(rewrite A2; auto)) as [B1 [B2 [B3 B4]]]. split; [auto|]. split; [eapply Forall2_evolves_trans; eauto|]. split; [apply Forall_app; split; [auto|rewrite <- A2; auto]|].
  intros j r Hj. destruct (pass_nth _ _ _ _ _ (rx_local rd) HH HN E j r Hj) as [r1 [C1 C2]]. destruct (B4 _ _ C1) as [r' [D1 D2]]. exists r'. split; [auto|].
  destruct (rx_local rd j r r1 _ (proj1 (Forall_forall _ _) HH r (nth_error_In _ _ Hj)) C2) as [X _]. rewrite (evolves_name _ _ X) in D2.
  exists r1, (on (r_name r) ev1), (on (r_name r) ev2). split; [auto|]. split; [|apply on_app].
  replace (nth j (map has_tx rs) false) with (has_tx r) in D2; [auto|]. symmetry. apply nth_error_nth. rewrite nth_error_map, Hj. auto.
Qed.

Inductive rounds (i : nat) : list round -> resource -> resource -> list event -> Prop :=
| rounds_nil : forall r, rounds i [] r r []
| rounds_cons : forall rd rds r r1 r' ev1 ev2, round_step i rd r r1 ev1 -> rounds i rds r1 r' ev2 -> rounds i (rd :: rds) r r' (ev1 ++ ev2).

Definition active (r : resource) : bool := has_rx r || has_tx r.

Lemma main_loop_eq : forall rds rs, main_loop rds rs =
  if existsb active rs then
    match served rds with
    | [] => Ret (rs, [])
    | rd :: _ => '(rs1, ev1) <- process rd rs;; '(rs2, ev2) <- main_loop (tl rds) rs1;; Ret (rs2, ev1 ++ ev2)
    end
  else Ret (rs, []).
Proof.
  intros rds rs. destruct rds as [|rd rds]; [reflexivity|]. cbn [main_loop served]. fold active. change (fun r => has_rx r || has_tx r) with active. destruct (existsb active rs); [|auto].
  destruct (rd_late rd); [auto|]. destruct (rd_select rd <=? 0); auto.
Qed.

Lemma main_sim : forall rds rs rs' ev, main_loop rds rs = Ret (rs', ev) -> Forall homog rs -> NoDup (map r_name rs) ->
  Forall2 evolves rs rs' /\ known (map r_name rs) ev /\
  exists n, (n <= length (served rds))%nat /\ ((n < length (served rds))%nat -> existsb active rs' = false) /\
  forall j r, nth_error rs j = Some r -> exists r', nth_error rs' j = Some r' /\ rounds j (firstn n (served rds)) r r' (on (r_name r) ev).
Proof.
  induction rds as [|rd rds IH]; intros rs rs' ev H HH HN; rewrite main_loop_eq in H.
  - assert (K : rs' = rs /\ ev = []) by (cbn [served] in H; destruct (existsb active rs); split; congruence). destruct K as [-> ->].
    split; [clear; induction rs; constructor; auto using evolves_refl|]. split; [constructor|]. exists 0%nat. split; [lia|]. split; [cbn; lia|]. intros j r Hj. exists r. split; [auto|constructor].
  - destruct (existsb active rs) eqn:Ea.
    + cbn [served tl] in *. destruct (rd_late rd || (rd_select rd <=? 0)).
      * assert (K : rs' = rs /\ ev = []) by (split; congruence). destruct K as [-> ->].
        split; [clear; induction rs; constructor; auto using evolves_refl|]. split; [constructor|]. exists 0%nat. split; [lia|]. split; [cbn; lia|]. intros j r Hj. exists r. split; [auto|constructor].
      * binv H. destruct a as [rs1 ev1]. binv H. destruct a as [rs2 ev2]. apply ret_inj in H. apply pair_inj in H. destruct H as [<- <-].
        destruct (process_sim _ _ _ _ E HH HN) as [A1 [A2 [A3 A4]]]. pose proof (evolves_names _ _ A2) as AN. destruct (IH _ _ _ E0 A1 ltac:(rewrite AN; auto)) as [B1 [B2 [n [B3 [B4 B5]]]]].
        split; [eapply Forall2_evolves_trans; eauto|]. split; [apply Forall_app; split; [auto|rewrite <- AN; auto]|]. exists (S n). cbn [length firstn]. split; [lia|]. split; [intros; apply B4; lia|].
        intros j r Hj. destruct (A4 _ _ Hj) as [r1 [C1 C2]]. destruct (B5 _ _ C1) as [r' [D1 D2]]. exists r'. split; [auto|]. rewrite on_app. apply rounds_cons with r1; [auto|].
        assert (X : r_name r1 = r_name r). { assert (HX := f_equal (fun l => nth_error l j) AN). cbn beta in HX. rewrite !nth_error_map, C1, Hj in HX. cbn in HX. congruence. }
        rewrite <- X. auto.
    + assert (K : rs' = rs /\ ev = []) by (split; congruence). destruct K as [-> ->].
      split; [clear; induction rs; constructor; auto using evolves_refl|]. split; [constructor|]. exists 0%nat. split; [lia|]. split; [auto|]. intros j r Hj. exists r. split; [auto|constructor].
Qed.

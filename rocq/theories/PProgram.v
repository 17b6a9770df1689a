(** Proofs about the program as a whole (C90). *)

From Coq Require Import Permutation.
From Verif Require Import BaseFacts SpecMain SpecChildren PMain PStatus PChildren3 PChildren6 Frame SpecParse Cmd Exec SpecExec PExec PRecv PVerdict SpecTest PTest PTest2 PTest3 SpecProgram.

Lemma rxpath_length : forall es es' rcs, rxpath es es' rcs -> length es' = length es.
Proof.
  intros es es' rcs H. induction H as [es|l c q b es' rcs Hd Ha Hl H IH|es b es' rcs Hm H IH]; [reflexivity| |exact IH].
  rewrite IH, !app_length. reflexivity.
Qed.

Lemma Forall2_len : forall A B (R : A -> B -> Prop) l m, Forall2 R l m -> length l = length m.
Proof. intros A B R l m H. induction H; cbn [length]; auto. Qed.

Lemma filter_length_le {A} (f : A -> bool) l : (length (filter f l) <= length l)%nat.
Proof. induction l as [|x l IH]; [auto|]. cbn [filter]. destruct (f x); cbn [length]; lia. Qed.

(** No more errors on an interface than frames arrived and expected. *)
Lemma errors_bound : forall T e r ev cs i ifn, proper T -> healthy T e -> runs (line T) e cs r ev -> Forall2 (realised T) T cs -> nth_error (used T) i = Some ifn ->
  (length (unexpected ifn ev) + length (reported_missing ifn ev) <= length (arrived i e) + length (to_expect ifn T))%nat.
Proof.
  intros T e r ev cs i ifn HT HE HR HC Hi. destruct (listening_dec ifn T) as [HL|HL].
  - destruct (test_silent _ _ ev ifn HT HC HL) as [_ HN]. pose proof (test_received _ _ _ _ _ _ _ HE HR HC Hi HL) as E1. destruct (run_rx _ _ _ _ _ _ HR HN) as [es' [H1 H2]].
    assert (A1 : (length (unexpected ifn ev) <= length (arrived i e))%nat).
    { rewrite <- E1. unfold unexpected, received. rewrite !map_length. apply filter_length_le. }
    assert (A2 : (length (reported_missing ifn ev) <= length (to_expect ifn T))%nat).
    { rewrite H2, map_length. pose proof (Forall2_len _ _ _ _ _ (test_expects _ _ ifn HC)) as E2. rewrite E2, <- (rxpath_length _ _ _ H1). apply filter_length_le. }
    lia.
  - destruct (test_unheard _ _ _ _ _ _ HT HR HC HL) as [-> ->]. cbn [length]. lia.
Qed.

Lemma sum_bound : forall (f : string -> nat) (g : nat -> nat) (h : string -> nat) l j, (forall i x, nth_error l i = Some x -> (f x <= g (j + i) + h x)%nat) ->
  (sum (map f l) <= sum (map g (seq j (length l))) + sum (map h l))%nat.
Proof.
  intros f g h. induction l as [|x l IH]; intros j H; [auto|]. cbn [map length seq sum fold_right]. pose proof (H 0%nat x eq_refl) as H0. rewrite Nat.add_0_r in H0.
  assert (H1 := IH (S j) (fun i y Hy => ltac:(specialize (H (S i) y Hy); rewrite Nat.add_succ_r in H; exact H))). unfold sum in H1. lia.
Qed.

Lemma length_flat_map : forall A B (f : A -> list B) l, length (flat_map f l) = sum (map (fun x => length (f x)) l).
Proof. intros A B f l. induction l as [|x l IH]; [reflexivity|]. cbn [flat_map map sum fold_right]. rewrite app_length, IH. reflexivity. Qed.

Lemma few_errors : forall T e r ev, proper T -> healthy T e -> few T e -> argc_cmds (line T) e = Ret (r, ev) -> 0 <= r < 256.
Proof.
  intros T e r ev HT HE HF HA. destruct (test_run _ _ _ _ HT HE HA) as [cs [HR HC]]. rewrite (total_errors _ _ _ _ _ HR), (test_interfaces _ _ HC).
  pose proof (sum_bound (fun ifn => (length (unexpected ifn ev) + length (reported_missing ifn ev))%nat) (fun i => length (arrived i e)) (fun ifn => length (to_expect ifn T)) (used T) 0
    (fun i x Hx => errors_bound T e r ev cs i x HT HE HR HC Hx)) as B.
  unfold few in HF. rewrite !length_flat_map in HF. lia.
Qed.

(** A shorter world. *)
Lemma cut_healthy : forall T e k, healthy T e -> healthy T (cut k e).
Proof.
  intros T e k HE. assert (I : forall rd, In rd (e_rounds (cut k e)) -> In rd (e_rounds e)) by (intros rd H; cbn in H; rewrite <- (firstn_skipn k (e_rounds e)); apply in_or_app; left; exact H).
  constructor; [exact (hl_open _ _ HE)|intros rd j H; apply (hl_send _ _ HE); auto|intros rd i m H; apply (hl_rx _ _ HE); auto].
Qed.

Lemma served_cut : forall rds k, exists j, served (firstn k rds) = firstn j (served rds).
Proof.
  induction rds as [|rd rds IH]; intros k; [exists 0%nat; destruct k; reflexivity|]. destruct k as [|k]; [exists 0%nat; reflexivity|]. cbn [firstn served].
  destruct (_ || _); [exists 0%nat; reflexivity|]. destruct (IH k) as [j ->]. exists (S j). reflexivity.
Qed.

Lemma arrived_cut : forall i e k, (length (arrived i (cut k e)) <= length (arrived i e))%nat.
Proof.
  intros i e k. unfold arrived, cut. cbn [e_rounds]. rewrite !map_length. destruct (served_cut (e_rounds e) k) as [j ->]. unfold delivered.
  rewrite <- (firstn_skipn j (served (e_rounds e))) at 2. rewrite flat_map_app, app_length. lia.
Qed.

Lemma cut_few : forall T e k, few T e -> few T (cut k e).
Proof.
  intros T e k H. unfold few in *. assert ((length (flat_map (fun i => arrived i (cut k e)) (seq 0 (length (used T)))) <= length (flat_map (fun i => arrived i e) (seq 0 (length (used T)))))%nat); [|lia].
  clear H. induction (seq 0 (length (used T))) as [|i l IH]; [auto|]. cbn [flat_map]. rewrite !app_length. pose proof (arrived_cut i e k). lia.
Qed.

Lemma cut_all : forall e, cut (length (e_rounds e)) e = e.
Proof. intros [op rds]. unfold cut. cbn [e_open e_rounds]. rewrite firstn_all. reflexivity. Qed.

(** The status. *)
Lemma status_zero : forall args t caps T e st ev, getopt args = ORun t caps (line T) -> proper T -> healthy T e -> few T e -> ef_main args e = Ret (st, ev) ->
  exists r, argc_cmds (line T) e = Ret (r, ev) /\ st = r /\ (st = 0 -> all_satisfied T e) /\ (distinguishable T -> all_satisfied T e -> st = 0).
Proof.
  intros args t caps T e st ev HG HT HE HF HM. unfold ef_main in HM. rewrite HG in HM. destruct (argc_cmds (line T) e) as [[r ev']|c] eqn:HA; cbn [bind] in HM; [|discriminate HM]. apply ret_inj, pair_inj in HM. destruct HM as [<- ->].
  pose proof (few_errors _ _ _ _ HT HE HF HA) as B. assert (E : exit_status r = r) by (unfold exit_status; apply Z.mod_small; lia). rewrite E. exists r. split; [reflexivity|]. split; [reflexivity|]. split.
  - intros Hr. eapply test_verdict; eauto.
  - intros HD HS. eapply test_passes; eauto.
Qed.

Lemma options_run : forall ps T, Forall part_ok ps -> flat_map operand_of ps = line T ->
  getopt (flat_map SpecMain.part_words ps) = ORun (last (flat_map time_of ps) 100) (flat_map capture_of ps) (line T).
Proof. intros ps T HP HT. pose proof (options ps [] _ HP End_none) as E. rewrite app_nil_r in E. rewrite E, HT. reflexivity. Qed.

Lemma program_status : forall ps T s sch st ev tr, Forall part_ok ps -> flat_map operand_of ps = line T ->
  let e := env_of (last (flat_map time_of ps) 100) s in proper T -> healthy T e -> few T e ->
  concurrent (flat_map SpecMain.part_words ps) s sch = Ret (Some (st, ev, tr)) ->
  exists k, (k = length (s_rounds s) \/ (k < length (s_rounds s))%nat /\ exists a b i p x, tr = a ++ Interrupted k :: b /\ In (Ended i p x) a) /\
    argc_cmds (line T) (cut k e) = Ret (st, ev) /\
    (st = 0 -> all_satisfied T (cut k e)) /\ (distinguishable T -> all_satisfied T (cut k e) -> st = 0).
Proof.
  intros ps T s sch st ev tr HP HO e HT HE HF HC. pose proof (options_run ps T HP HO) as HG. destruct (PChildren6.cut_short _ _ _ _ _ _ HC) as [t [[caps [ws HG']] X]]. rewrite HG in HG'.
  assert (Et : t = last (flat_map time_of ps) 100) by congruence. subst t. cbv zeta in X. fold e in X. destruct X as [k [Hk [HM Hi]]]. exists k.
  destruct (status_zero _ _ _ _ _ _ _ HG HT (cut_healthy T e k HE) (cut_few T e k HF) HM) as [r [HA [-> [H1 H2]]]]. split; [|auto].
  destruct Hi as [Hi|Hi]; [left; exact Hi|]. destruct (Nat.eq_dec k (length (s_rounds s))); [left; auto|right; split; [lia|exact Hi]].
Qed.

(** It comes to its end. *)
Lemma program_ends : forall ps T s, Forall part_ok ps -> flat_map operand_of ps = line T ->
  proper T -> healthy T (env_of (last (flat_map time_of ps) 100) s) ->
  forall sch m tr, run sch (begin (map (fun c => fst (capture_add c)) (flat_map capture_of ps)) (length (s_rounds s))) = Some (m, tr) ->
  exists sch' st ev tr', concurrent (flat_map SpecMain.part_words ps) s (sch ++ sch') = Ret (Some (st, ev, tr ++ tr')).
Proof.
  intros ps T s HP HO HT HE sch m tr HR. pose proof (options_run ps T HP HO) as HG. destruct (finishes _ _ _ _ _ HR) as (k & m' & tr' & HR' & Hc). exists (repeat (Go (-1)) k).
  pose proof (PChildren3.run_app _ _ _ _ _ _ _ HR HR') as HRR. unfold concurrent. rewrite HG. destruct (proper_parsed _ HT) as [cs [HPP HW]]. rewrite HPP. cbn [bind]. rewrite HRR. destruct m' as [code caps lv dd pe sg]. cbn [Children.m_code] in Hc. subst code.
  set (e := env_of (last (flat_map time_of ps) 100) s) in *. set (n := rounds_done (tr ++ tr')).
  destruct (test_runs T (cut n e) HT (cut_healthy T e n HE)) as [r [ev HA]]. unfold argc_cmds in HA. rewrite HPP in HA. cbn [bind] in HA. change (MkEnv (s_open s) (firstn n (e_rounds e))) with (cut n e).
  rewrite HA. cbn [bind]. do 3 eexists. reflexivity.
Qed.

(** No capture ends while the program listens. *)
Lemma program_undisturbed : forall ps T s sch st ev tr, Forall part_ok ps -> flat_map operand_of ps = line T ->
  let e := env_of (last (flat_map time_of ps) 100) s in proper T -> healthy T e -> few T e ->
  concurrent (flat_map SpecMain.part_words ps) s sch = Ret (Some (st, ev, tr)) ->
  (forall a k b i p x, tr = a ++ Interrupted k :: b -> ~ In (Ended i p x) a) ->
  argc_cmds (line T) e = Ret (st, ev) /\ (st = 0 -> all_satisfied T e) /\ (distinguishable T -> all_satisfied T e -> st = 0).
Proof.
  intros ps T s sch st ev tr HP HO e HT HE HF HC HN. destruct (program_status _ _ _ _ _ _ _ HP HO HT HE HF HC) as [k [[Hk|[_ (a & b & i & p & x & H1 & H2)]] X]]; [|destruct (HN _ _ _ _ _ _ H1 H2)].
  fold e in X. assert (E : cut k e = e). { subst k. unfold e, env_of, cut. cbn [e_open e_rounds]. rewrite <- (map_length (timed (end_of (last (flat_map time_of ps) 100) (s_begin s))) (s_rounds s)), firstn_all. reflexivity. }
  rewrite E in X. exact X.
Qed.

(** Proofs about tests of a device that passes frames on (C96). *)

From Coq Require Import Permutation.
From Verif Require Import BaseFacts SpecDevice SpecSockets PTest PTest2 PTest3 PWire PTogether PTogether2 PSockets7.
From Verif Require PPair PRecv PSockets8 PExec PProgram SpecChildren.

Lemma wish_repeat : forall P bs, Forall2 (fun (p : list wish * Z) b => spelled (map plain (fst p)) b) P bs ->
  Forall2 (fun ws b => spelled (map plain ws) b) (flat_map (fun p => repeat (fst p) (Z.to_nat (snd p))) P)
    (map fst (filter snd (flat_map (fun q : list wish * Z * list Z => repeat (snd q, true) (Z.to_nat (snd (fst q)))) (combine P bs)))).
Proof.
  intros P bs H. induction H as [|[ws n] b P bs H HL IH]; [constructor|]. cbn [flat_map combine fst snd] in *. rewrite filter_app, map_app. apply Forall2_app; [|exact IH].
  clear -H. induction (Z.to_nat n) as [|k IH]; cbn [repeat filter snd map fst]; constructor; auto.
Qed.

Lemma sends_length : forall (P : list (list wish * Z)) (bs : list (list Z)), length P = length bs ->
  length (flat_map (fun q : list wish * Z * list Z => repeat (snd q, true) (Z.to_nat (snd (fst q)))) (combine P bs)) = length (flat_map (fun p => repeat (fst p) (Z.to_nat (snd p))) P).
Proof.
  intros P. induction P as [|[ws n] P IH]; intros [|b bs] H; try discriminate H; [reflexivity|]. cbn [combine flat_map fst snd]. rewrite !app_length, !repeat_length. rewrite (IH bs) by (cbn [length] in H; lia). reflexivity.
Qed.

Lemma device_sent : forall T e r ev a, proper T -> healthy T e -> argc_cmds (line T) e = Ret (r, ev) -> sending a T -> length (sends a ev) = length (each T a) -> Forall2 (fun ws b => spelled (map plain ws) b) (each T a) (frames_sent a ev).
Proof.
  intros T e r ev a HT HE HA HS HF. assert (HI : In a (used T)).
  { destruct HS as [rep [s HS]]. apply PPair.distinct_in. apply in_flat_map. eexists. split; [exact HS|]. left. reflexivity. }
  apply In_nth_error in HI. destruct HI as [i HI]. destruct (test_sent _ _ _ _ _ _ HT HE HA HI) as [j [bs [H1 [H2 [H3 [_ _]]]]]].
  pose proof (wish_repeat _ _ H2) as K. rewrite <- H3 in K. fold (frames_sent a ev) in K. pose proof (sends_length _ _ (PRecv.Forall2_length' _ _ _ _ _ H2)) as L. rewrite <- H3, HF in L.
  assert (E : each T a = flat_map (fun p => repeat (fst p) (Z.to_nat (snd p))) (firstn j (to_send a T)) ++ flat_map (fun p => repeat (fst p) (Z.to_nat (snd p))) (skipn j (to_send a T))) by (unfold each; rewrite <- flat_map_app, firstn_skipn; reflexivity).
  pose proof (f_equal (@length _) E) as L2. rewrite app_length in L2. destruct (flat_map _ (skipn j _)) as [|x y]; [|cbn [length] in L2; lia]. rewrite app_nil_r in E. rewrite E. exact K.
Qed.

Lemma device_sources : forall T e r ev src, proper T -> healthy T e -> argc_cmds (line T) e = Ret (r, ev) -> finished T ev -> (forall a, In a src -> sending a T) ->
  Forall2 (fun ws b => spelled (map plain ws) b) (flat_map (each T) src) (flat_map (fun a => frames_sent a ev) src).
Proof.
  intros T e r ev src HT HE HA HF. induction src as [|a src IH]; intros HS; [constructor|]. cbn [flat_map]. apply Forall2_app; [|apply IH; intros x Hx; apply HS; right; exact Hx]. assert (S : sending a T) by (apply HS; left; reflexivity). eapply device_sent; eauto.
Qed.

Lemma spelled_meets : forall W X, Forall2 (fun ws b => spelled (map plain ws) b) W X -> Forall2 meets W X.
Proof. intros W X H. induction H as [|ws b W X H HL IH]; constructor; [exists b; auto|exact IH]. Qed.

Lemma strict_same : forall W X B, Forall sayable W -> Forall strict W -> Forall (Forall is_byte) X -> Forall2 meets W X -> Forall2 (fun ws b => spelled (map plain ws) b) W B -> X = B.
Proof.
  intros W X B HA HS HX HM. revert B. induction HM as [|ws x W X H HL IH]; intros B HB; inversion HB; subst; [reflexivity|]. inversion HA; inversion HS; inversion HX; subst. f_equal; [|apply IH; auto]. eapply meets_strict; eauto.
Qed.

Lemma expected_back : forall T e r ev src b X, proper T -> healthy T e -> argc_cmds (line T) e = Ret (r, ev) -> finished T ev -> expects_back src T -> listening b T -> Forall (Forall is_byte) X ->
  (as_expected b T X <-> passed_on src b ev X).
Proof.
  intros T e r ev src b X HT HE HA HF [HX HN HS] HL HB. pose proof (device_sources _ _ _ _ (src b) HT HE HA HF (fun a Ha => HN b a HL Ha)) as D. specialize (HX b HL). split.
  - intros [W [W1 W2]]. destruct (Forall2_perm _ _ _ _ _ (Forall2_flip _ _ _ _ _ D) W) as [B [B1 B2]]; [rewrite <- HX; exact W1|]. apply Forall2_flip in B2. unfold passed_on. rewrite B1.
    assert (Q : forall ws, In ws W -> In ws (to_expect b T)) by (intros ws Hw; eapply Permutation_in; [symmetry; exact W1|exact Hw]).
    rewrite (strict_same W X B); auto; apply Forall_forall; intros ws Hw; [eapply expected_sayable; eauto|eapply HS; eauto].
  - intros P. destruct (Forall2_perm _ _ _ _ _ D X P) as [W [W1 W2]]. exists W. split; [rewrite HX; exact W1|apply spelled_meets; exact W2].
Qed.

Lemma device_bytes : forall T sch cs r ev tr rds i ix since n, executes (line T) sch cs r ev tr rds -> Forall (smooth sized) sch -> listens i ix tr since -> (n <= length (SpecSockets.taken i tr))%nat -> Forall (Forall is_byte) (firstn n (on_wire ix since)).
Proof.
  intros T sch cs r ev tr rds i ix since n H F HS HN. destruct (wire_arrived _ _ _ _ _ _ _ _ _ _ H HS) as [after [B1 B2]]. rewrite B1, firstn_app. replace (n - _)%nat with 0%nat by lia. cbn [firstn]. rewrite app_nil_r.
  pose proof (arrived_bytes T _ i (wire_healthy _ _ _ _ _ _ _ H F)) as K. rewrite Forall_forall in K. apply Forall_forall. intros x Hx. apply K. rewrite <- (firstn_skipn n (arrived i _)). apply in_or_app. left. exact Hx.
Qed.

Lemma device_env : forall T sch cs r ev tr rds, executes (line T) sch cs r ev tr rds -> Forall (smooth sized) sch -> ~ trouble tr -> argc_cmds (line T) (MkEnv (fun _ => true) rds) = Ret (r, ev) /\ healthy T (MkEnv (fun _ => true) rds).
Proof.
  intros T sch cs r ev tr rds H F NT. destruct (executes_env _ _ _ _ _ _ _ H) as [b [A1 [A2 _]]]. assert (b = true) by (destruct b; [auto|]; destruct NT; apply A2; auto). subst b. split; [exact A1|eapply wire_healthy; eauto].
Qed.

(** *** The whole program *)
Lemma device_passed : forall src ps T sch ev tr i b ix since, Forall part_ok ps -> flat_map operand_of ps = line T -> proper T -> expects_back src T -> Forall fair sch ->
  program (flat_map SpecMain.part_words ps) sch = Ret (Some (0, ev, tr)) -> few_read T (net_seen tr) -> finished T ev -> nth_error (used T) i = Some b -> listening b T -> listens i ix (net_seen tr) since ->
  length (SpecSockets.taken i (net_seen tr)) = length (to_expect b T) /\ passed_on src b ev (firstn (length (to_expect b T)) (on_wire ix since)).
Proof.
  intros src ps T sch ev tr i b ix since HP HO HT HX HF HR HN HE HI HL HS. destruct (words_passed _ _ _ _ _ _ _ _ _ HP HO HT HF HR HN HI HL HS) as [A1 A2]. split; [exact A1|].
  destruct (words_executes _ _ _ _ _ _ HP HO HR) as [cs [r [rds [X Y]]]]. pose proof (fair_net _ HF) as F. assert (r = 0) by (eapply status_result; eauto). subst r.
  assert (NT : ~ trouble (net_seen tr)). { destruct (executes_env _ _ _ _ _ _ _ X) as [c [_ [B1 B2]]]. intros Q. specialize (B2 Q). lia. }
  destruct (device_env _ _ _ _ _ _ _ X F NT) as [E1 E2]. apply (expected_back _ _ _ _ _ _ _ HT E2 E1 HE HX HL); [|exact A2]. eapply device_bytes; eauto. lia.
Qed.

Lemma device_exactly : forall src ps T sch st ev tr, Forall part_ok ps -> flat_map operand_of ps = line T -> proper T -> expects_back src T -> Forall fair sch ->
  program (flat_map SpecMain.part_words ps) sch = Ret (Some (st, ev, tr)) -> few_read T (net_seen tr) -> ~ trouble (net_seen tr) -> all_read T (net_seen tr) -> finished T ev -> (st = 0 <-> all_passed_on src T ev (net_seen tr)).
Proof.
  intros src ps T sch st ev tr HP HO HT HX HF HR HN NT HA HE. pose proof (strict_apart _ HT (eb_strict _ _ HX)) as HD. rewrite (words_exactly _ _ _ _ _ _ HP HO HT HD HF HR HN NT HA).
  destruct (words_executes _ _ _ _ _ _ HP HO HR) as [cs [r [rds [X Y]]]]. pose proof (fair_net _ HF) as F. destruct (device_env _ _ _ _ _ _ _ X F NT) as [E1 E2].
  assert (K : forall i b ix since, listening b T -> listens i ix (net_seen tr) since -> length (SpecSockets.taken i (net_seen tr)) = length (on_wire ix since) -> (as_expected b T (on_wire ix since) <-> passed_on src b ev (on_wire ix since))).
  { intros i b ix since HL HS L. apply (expected_back _ _ _ _ _ _ _ HT E2 E1 HE HX HL). rewrite <- (firstn_all (on_wire ix since)). eapply device_bytes; eauto. lia. }
  split; intros H i b HI HL; destruct (H i b HI HL) as [ix [since [A1 [A2 A3]]]]; exists ix, since; (split; [exact A1|split; [exact A2|apply (K i b ix since HL A1 A2); exact A3]]).
Qed.

Lemma device_frames : forall ps T sch st ev tr a, Forall part_ok ps -> flat_map operand_of ps = line T -> proper T -> Forall fair sch ->
  program (flat_map SpecMain.part_words ps) sch = Ret (Some (st, ev, tr)) -> ~ trouble (net_seen tr) -> sending a T -> length (sends a ev) = length (each T a) -> Forall2 (fun ws b => spelled (map plain ws) b) (each T a) (frames_sent a ev).
Proof.
  intros ps T sch st ev tr a HP HO HT HF HR NT HS HE. destruct (words_executes _ _ _ _ _ _ HP HO HR) as [cs [r [rds [X Y]]]]. destruct (device_env _ _ _ _ _ _ _ X (fair_net _ HF) NT) as [E1 E2]. eapply device_sent; eauto.
Qed.

(** *** It can pass *)
Lemma built : forall W, Forall sayable W -> exists B, Forall2 (fun ws b => spelled (map plain ws) b) W B.
Proof. intros W H. induction H as [|ws W H HL [B IH]]; [exists []; constructor|]. destruct (sayable_frame _ H) as [_ [_ [b [_ [_ [Hb _]]]]]]. exists (b :: B). constructor; auto. Qed.

Lemma bring : forall T, proper T -> forall l, exists F : nat -> list (list Z), forall i b, nth_error l i = Some b -> Forall2 (fun ws x => spelled (map plain ws) x) (to_expect b T) (F i).
Proof.
  intros T HT l. induction l as [|b l [F IH]]; [exists (fun _ => []); intros [|i] b H; discriminate H|]. destruct (built (to_expect b T)) as [B HB]; [apply Forall_forall; intros ws Hw; eapply expected_sayable; eauto|].
  exists (fun i => match i with O => B | S j => F j end). intros [|i] c H; cbn [nth_error] in H; [apply some_inj in H; subst c; exact HB|apply IH; exact H].
Qed.

Lemma writable_feeding : forall F N i, writable i (feeding F N) = N.
Proof.
  intros F N i. unfold writable, feeding. assert (K : forall l, length (filter (fun rd => rd_wr rd i) (map (fun j => MkRound 1 false (fun i => nth_error (F i) j) (fun _ => true) (fun _ => true)) l)) = length l); [|rewrite K; apply seq_length].
  induction l as [|j l IH]; [reflexivity|]. cbn [map filter rd_wr length]. rewrite IH. reflexivity.
Qed.

Lemma most : forall A (f : A -> nat) l, exists N, forall x, In x l -> (f x <= N)%nat.
Proof. intros A f l. induction l as [|a l [N IH]]; [exists 0%nat; intros x []|]. exists (Nat.max (f a) N). intros x [<-|H]; [lia|]. specialize (IH x H). lia. Qed.

Lemma device_can : forall src T, proper T -> expects_back src T -> fitting T ->
  exists sch cs ev tr rds, executes (line T) sch cs 0 ev tr rds /\ Forall (smooth sized) sch /\ ~ trouble tr /\ finished T ev /\ all_passed_on src T ev tr.
Proof.
  intros src T HT HX HZ. destruct (bring T HT (used T)) as [G HG].
  set (F := fun i => match nth_error (used T) i with Some b => map (fun x => MkRx x None) (G i) | None => [] end).
  assert (FS : forall i m, In m (F i) -> sized m).
  { intros i m Hm. unfold F in Hm. destruct (nth_error (used T) i) as [b|] eqn:EI; [|destruct Hm]. apply in_map_iff in Hm. destruct Hm as [x [<- Hx]]. specialize (HG i b EI). destruct (PExec.Forall2_in_r _ _ _ _ _ HG x Hx) as [ws [H1 H2]]. specialize (HZ b ws H1). pose proof (sp_size _ _ H2) as L. split; [split|]; cbn [rx_data rx_vlan]; [lia|congruence|apply (sp_bytes _ _ H2)]. }
  destruct (enough F (length (used T))) as [N1 HN1]. destruct (most _ (fun a => length (to_send a T)) (used T)) as [N2 HN2]. set (N := Nat.max N1 N2). set (e := MkEnv (fun _ => true) (feeding F N)).
  assert (HM : forall rd i m, In rd (feeding F N) -> rd_rx rd i = Some m -> sized m) by (intros rd i m H1 H2; apply in_map_iff in H1; destruct H1 as [j [<- _]]; cbn [rd_rx] in H2; apply nth_error_In in H2; apply (FS i m H2)).
  assert (HD : forall rd k, In rd (feeding F N) -> rd_send rd k = true) by (intros rd k H; apply in_map_iff in H; destruct H as [j [<- _]]; auto).
  assert (HH : healthy T e) by (constructor; cbn [e e_open e_rounds]; auto).
  assert (SV : served (e_rounds e) = feeding F N) by (cbn [e e_rounds]; unfold feeding; apply served_feeding).
  destruct (test_runs _ _ HT HH) as [r [ev HA]]. destruct (test_run _ _ _ _ HT HH HA) as [cs [HR HC]]. destruct (PSockets8.runs_listens _ _ _ _ _ HR) as [sch [tr [rds [H1 [H2 [H3 H4]]]]]].
  assert (HF : finished T ev).
  { intros a HS. assert (HI : In a (used T)) by (destruct HS as [rep [s HS]]; apply PPair.distinct_in; apply in_flat_map; eexists; split; [exact HS|]; left; reflexivity). specialize (HN2 a HI). apply In_nth_error in HI. destruct HI as [i HI]. destruct (test_sent _ _ _ _ _ _ HT HH HA HI) as [j [bs [B1 [B2 [B3 [_ B5]]]]]].
    rewrite SV, writable_feeding in B5. specialize (B5 ltac:(unfold N; lia)). subst j. rewrite firstn_all in B2, B3. rewrite B3. apply sends_length. apply (PRecv.Forall2_length' _ _ _ _ _ B2). }
  assert (HW : forall i b, nth_error (used T) i = Some b -> listening b T -> exists ix since, listens i ix tr since /\ length (SpecSockets.taken i tr) = length (on_wire ix since) /\ on_wire ix since = G i).
  { intros i b HI HL. assert (HI' := HI). rewrite <- (test_interfaces _ _ HC) in HI'. destruct (H3 i b HI') as [ix [since [A1 [A2 A3]]]]. specialize (A3 (proj1 (test_rx _ _ _ HC) HL)). rewrite SV, delivered_feeding in A3. 2: { assert (i < length (used T))%nat by (apply nth_error_Some; congruence). specialize (HN1 i H). unfold N. lia. }
    exists ix, since. split; [auto|]. unfold on_wire. rewrite map_length, A2. split; [reflexivity|]. rewrite <- (map_map snd put_tag). rewrite A3. unfold F. rewrite HI, map_map. cbn [put_tag rx_vlan rx_data]. apply map_id. }
  assert (r = 0).
  { apply (wire_passes _ _ _ _ _ _ _ HT (strict_apart _ HT (eb_strict _ _ HX)) H1); auto. intros i b HI HL. destruct (HW i b HI HL) as [ix [since [A1 [A2 A3]]]]. exists ix, since. split; [auto|]. split; [auto|]. rewrite A3. exists (to_expect b T). split; [reflexivity|]. apply spelled_meets. apply HG. exact HI. }
  subst r. exists sch, cs, ev, tr, rds. split; [auto|]. assert (SM : Forall (smooth sized) sch) by (apply H4; auto). split; [auto|]. split; [auto|]. split; [auto|].
  intros i b HI HL. destruct (HW i b HI HL) as [ix [since [A1 [A2 A3]]]]. exists ix, since. split; [auto|]. split; [auto|]. apply (expected_back _ _ _ _ _ _ _ HT HH HA HF HX HL).
  - rewrite <- (firstn_all (on_wire ix since)). eapply device_bytes; eauto. lia.
  - rewrite A3. exists (to_expect b T). split; [reflexivity|]. apply spelled_meets. apply HG. exact HI.
Qed.

Lemma device_can_program : forall src ps T trC, Forall part_ok ps -> flat_map operand_of ps = line T -> proper T -> expects_back src T -> fitting T ->
  SpecChildren.completes (map (fun c => fst (capture_add c)) (flat_map capture_of ps)) 0 trC -> (forall k, ~ In (Children.Interrupted k) trC) ->
  exists sch ev tr, program (flat_map SpecMain.part_words ps) sch = Ret (Some (0, ev, tr)) /\ Forall fair sch /\ child_seen tr = trC /\ ~ trouble (net_seen tr) /\ finished T ev /\ all_passed_on src T ev (net_seen tr).
Proof.
  intros src ps T trC HP HO HT HX HZ HC HI. destruct (device_can src T HT HX HZ) as [schN [cs [ev [trN [rds [H1 [H2 [H3 [H4 H5]]]]]]]]].
  destruct (every_way _ _ _ _ _ _ _ _ _ _ _ (PProgram.options_run _ _ HP HO) H1 HC HI) as [sch [tr [A1 [A2 [A3 [_ A5]]]]]]. exists sch, ev, tr. rewrite A3. split; [exact A1|]. split; [|auto].
  apply Forall_forall. intros a Ha. destruct a as [c|c|]; cbn [fair]; [exact I| |exact I]. rewrite Forall_forall in H2. apply H2. rewrite <- A5. apply in_flat_map. exists (Net c). split; [exact Ha|left; reflexivity].
Qed.

(** The verdict on the received frames (C41-C44). *)

From Coq Require Import Permutation.
From Verif Require Import PTextIp PTextNum Frame Exec SpecExec PParse PMatch PCmd PPair PExec PRecv.

(** *** Accounting (C41) *)
Lemma nth_mid_eq : forall A (l q : list A) x, nth_error (l ++ x :: q) (length l) = Some x.
Proof. intros A l q x. rewrite nth_error_app2 by lia. rewrite Nat.sub_diag. auto. Qed.

Lemma nth_mid_ne : forall A (l q : list A) x y j, j <> length l -> nth_error (l ++ x :: q) j = nth_error (l ++ y :: q) j.
Proof.
  intros A l q x y j H. destruct (Nat.lt_ge_cases j (length l)).
  - rewrite !nth_error_app1 by lia. auto.
  - rewrite !nth_error_app2 by lia. destruct (j - length l)%nat eqn:E; [lia|]. auto.
Qed.

Definition ledger (es es' : list cmd) (rcs : list (bool * list Z)) (a : list (option nat)) : Prop :=
  length a = length rcs /\
  (forall k ok b, nth_error rcs k = Some (ok, b) -> exists o, nth_error a k = Some o /\ ok = is_some o) /\
  (forall k ok b j, nth_error rcs k = Some (ok, b) -> nth_error a k = Some (Some j) -> exists c, nth_error es j = Some c /\ c_done c = false /\ accepts c b) /\
  (forall k k' j, nth_error a k = Some (Some j) -> nth_error a k' = Some (Some j) -> k = k') /\
  (forall k b j c, nth_error rcs k = Some (false, b) -> nth_error es j = Some c -> c_done c = false -> accepts c b -> exists k', (k' < k)%nat /\ nth_error a k' = Some (Some j)) /\
  length es' = length es /\
  (forall j c c', nth_error es j = Some c -> nth_error es' j = Some c' -> same_cmd c c' /\ (c_done c' = true <-> c_done c = true \/ In (Some j) a)).

Lemma rxpath_ledger : forall es es' rcs, rxpath es es' rcs -> exists a, ledger es es' rcs a.
Proof.
  intros es es' rcs H. induction H as [es|l c q b es' rcs Hd Ha Hl H IH|es b es' rcs Hm H IH].
  - exists []. unfold ledger. split; [auto|]. split; [intros [|k]; discriminate|]. split; [intros [|k]; discriminate|]. split; [intros [|k]; discriminate|]. split; [intros [|k]; discriminate|]. split; [auto|].
    intros j c c' H1 H2. assert (c' = c) by congruence. subst. split; [apply same_refl|]. split; [auto|intros [X|[]]; auto].
  - destruct IH as [a [L1 [L2 [L3 [L4 [L5 [L6 L7]]]]]]]. exists (Some (length l) :: a).
    assert (HNT : forall k, nth_error a k = Some (Some (length l)) -> False).
    { intros k Hk. destruct (nth_error rcs k) as [[ok b']|] eqn:Ek.
      - destruct (L3 _ _ _ _ Ek Hk) as [c0 [X1 [X2 _]]]. rewrite nth_mid_eq in X1. assert (c0 = set_done c) by congruence. subst. discriminate.
      - apply nth_error_None in Ek. assert (k < length a)%nat by (apply nth_error_Some; congruence). lia. }
    unfold ledger. split; [cbn [length]; lia|]. split; [|split; [|split; [|split; [|split]]]].
    + intros [|k] ok b' Hk; cbn [nth_error] in *; [|eauto]. exists (Some (length l)). split; [auto|]. cbn. congruence.
    + intros [|k] ok b' j Hk Hj; cbn [nth_error] in *.
      * assert (j = length l) by congruence. assert (b' = b) by congruence. subst. exists c. split; [apply nth_mid_eq|auto].
      * destruct (L3 _ _ _ _ Hk Hj) as [c0 [X1 [X2 X3]]]. exists c0. split; [|auto]. rewrite <- X1. apply nth_mid_ne. intros ->. eapply HNT; eauto.
    + intros [|k] [|k'] j Hk Hk'; cbn [nth_error] in *; auto.
      * exfalso. apply (HNT k'). congruence.
      * exfalso. apply (HNT k). congruence.
      * f_equal. eapply L4; eauto.
    + intros [|k] b' j c0 Hk Hj Hd0 Ha0; cbn [nth_error] in *; [discriminate|]. destruct (Nat.eq_dec j (length l)) as [->|Hn]; [exists 0%nat; split; [lia|auto]|].
      rewrite (nth_mid_ne _ _ _ _ (set_done c)) in Hj by auto. destruct (L5 _ _ _ _ Hk Hj Hd0 Ha0) as [k' [X1 X2]]. exists (S k'). split; [lia|auto].
    + rewrite L6, !app_length. auto.
    + intros j c0 c' Hj Hj'. destruct (Nat.eq_dec j (length l)) as [->|Hn].
      * rewrite nth_mid_eq in Hj. assert (c0 = c) by congruence. subst c0. destruct (L7 _ _ _ (nth_mid_eq _ _ _ _) Hj') as [X1 X2]. split; [eapply same_trans; [|exact X1]; repeat split|].
        split; [intros _; right; left; auto|]. intros _. apply X2. left. auto.
      * rewrite (nth_mid_ne _ _ _ _ (set_done c)) in Hj by auto. destruct (L7 _ _ _ Hj Hj') as [X1 X2]. split; [auto|]. rewrite X2. cbn [In]. split; [tauto|]. intros [X|[X|X]]; auto. congruence.
  - destruct IH as [a [L1 [L2 [L3 [L4 [L5 [L6 L7]]]]]]]. exists (None :: a). unfold ledger. split; [cbn [length]; lia|]. split; [|split; [|split; [|split; [|split]]]].
    + intros [|k] ok b' Hk; cbn [nth_error] in *; [|eauto]. exists None. split; [auto|]. cbn. congruence.
    + intros [|k] ok b' j Hk Hj; cbn [nth_error] in *; [discriminate|eauto].
    + intros [|k] [|k'] j Hk Hk'; cbn [nth_error] in *; try discriminate. f_equal. eapply L4; eauto.
    + intros [|k] b' j c0 Hk Hj Hd0 Ha0; cbn [nth_error] in *.
      * assert (b' = b) by congruence. subst. destruct (Hm c0 (nth_error_In _ _ Hj) Hd0 Ha0).
      * destruct (L5 _ _ _ _ Hk Hj Hd0 Ha0) as [k' [X1 X2]]. exists (S k'). split; [lia|auto].
    + auto.
    + intros j c0 c' Hj Hj'. destruct (L7 _ _ _ Hj Hj') as [X1 X2]. split; [auto|]. rewrite X2. cbn [In]. split; [tauto|]. intros [X|[X|X]]; auto. discriminate.
Qed.

Lemma taken_in : forall a j, taken a j = true <-> In (Some j) a.
Proof.
  intros a j. unfold taken. rewrite existsb_exists. split.
  - intros [[i|] [H1 H2]]; [apply Nat.eqb_eq in H2; subst; auto|discriminate].
  - intros H. exists (Some j). split; [auto|apply Nat.eqb_refl].
Qed.

Lemma waiting_unsatisfied : forall (T : nat -> bool) es es' s, length es' = length es ->
  (forall j c c', nth_error es j = Some c -> nth_error es' j = Some c' -> frame_of c' = frame_of c /\ c_done c' = T (s + j)%nat) ->
  map frame_of (waiting es') = map frame_of (map snd (filter (fun p => negb (T (fst p))) (combine (seq s (length es)) es))).
Proof.
  intros T. induction es as [|c es IH]; intros [|c' es'] s HL H; try discriminate; [auto|]. destruct (H 0%nat c c' eq_refl eq_refl) as [H1 H2]. rewrite Nat.add_0_r in H2.
  unfold waiting in *. cbn [length seq combine filter fst]. assert (IH' := IH es' (S s) ltac:(cbn in HL; lia)). rewrite <- H2.
  assert (HI : forall j c0 c0', nth_error es j = Some c0 -> nth_error es' j = Some c0' -> frame_of c0' = frame_of c0 /\ c_done c0' = T (S s + j)%nat).
  { intros j c0 c0' Hj Hj'. replace (S s + j)%nat with (s + S j)%nat by lia. apply (H (S j)); auto. }
  destruct (negb (c_done c')); cbn [map snd]; rewrite IH' by auto; [f_equal; auto|auto].
Qed.

Lemma frame_of_same : forall c c', same_cmd c c' -> frame_of c' = frame_of c.
Proof. intros c c' [_ [_ [_ [_ [H _]]]]]. unfold frame_of. rewrite H. auto. Qed.

Lemma accounted : forall es es' rcs, rxpath es es' rcs -> Forall (fun c => c_done c = false) es ->
  exists a, accounts es rcs a /\ map frame_of (waiting es') = map frame_of (unsatisfied es a).
Proof.
  intros es es' rcs H HF. destruct (rxpath_ledger _ _ _ H) as [a [L1 [L2 [L3 [L4 [L5 [L6 L7]]]]]]]. rewrite Forall_forall in HF. exists a. split.
  - split; [auto|]. split; [auto|]. split; [|split; [auto|]].
    + intros k ok b j Hk Hj. destruct (L3 _ _ _ _ Hk Hj) as [c [X1 [X2 X3]]]. eauto.
    + intros k b j c Hk Hj Ha. eapply L5; eauto. apply HF. eapply nth_error_In; eauto.
  - apply (waiting_unsatisfied (taken a) es es' 0 L6). intros j c c' Hj Hj'. destruct (L7 _ _ _ Hj Hj') as [X1 X2]. split; [apply frame_of_same; auto|]. cbn [plus].
    apply eq_true_iff_eq. rewrite X2, taken_in. rewrite (HF c) by (eapply nth_error_In; eauto). intuition discriminate.
Qed.

Lemma error_kinds : forall ns ev, known ns (filter is_error ev) -> forall x, In x ev -> is_error x = true -> exists n b, In n ns /\ (x = EvRxErr n b \/ exists nm m, x = EvNoRx n b nm m).
Proof.
  intros ns ev H x Hx He. unfold known in H. rewrite Forall_forall in H. destruct (H x) as [n [H1 H2]]; [apply filter_In; auto|]. destruct x; try discriminate; cbn in H1; exists n, b; split; auto; [left; congruence|right; exists name, mask; congruence].
Qed.

Lemma error_count : forall n ev, length (filter is_error (on n ev)) = (length (unexpected n ev) + length (reported_missing n ev))%nat.
Proof.
  intros n ev. unfold unexpected, receptions, reported_missing, on. rewrite map_length. induction ev as [|x ev IH]; [auto|]. cbn [filter flat_map].
  destruct x; cbn [event_if]; auto; destruct (String.eqb ifn n); cbn [filter is_error length app fst negb]; lia.
Qed.

Lemma filter_comm : forall A (p q : A -> bool) l, filter p (filter q l) = filter q (filter p l).
Proof.
  intros A p q. induction l as [|x l IH]; [auto|]. cbn [filter]. destruct (q x) eqn:Q, (p x) eqn:P; cbn [filter]; rewrite ?Q, ?P, IH; auto.
Qed.

Lemma filter_idem : forall A (p : A -> bool) l, filter p (filter p l) = filter p l.
Proof. intros A p l. apply filter_all. intros x Hx. apply filter_In in Hx. tauto. Qed.

Lemma sum_of_nat : forall l, fold_right Z.add 0 (map Z.of_nat l) = Z.of_nat (sum l).
Proof. induction l as [|x l IH]; [auto|]. cbn [map fold_right sum]. unfold sum in *. lia. Qed.

Lemma total_errors : forall ws e cs r ev, runs ws e cs r ev ->
  r = Z.of_nat (sum (map (fun ifn => (length (unexpected ifn ev) + length (reported_missing ifn ev))%nat) (interfaces cs))).
Proof.
  intros ws e cs r ev HR. destruct (run_struct _ _ _ _ _ HR) as [n [rs [rs' [HG [_ [_ [_ [_ [H1 H2]]]]]]]]]. rewrite H1.
  rewrite <- (filter_idem _ is_error ev). rewrite <- (errors_split (interfaces cs) (filter is_error ev) is_error (distinct_nodup _) H2). rewrite <- sum_of_nat, map_map. f_equal. apply map_ext. intros m.
  rewrite <- error_count. f_equal. f_equal. unfold on. rewrite (filter_comm _ _ is_error ev), filter_idem. auto.
Qed.

(** C41 *)
Lemma frames_accounted : forall ws e cs r ev ifn, runs ws e cs r ev -> no_echo ifn cs ev ->
  exists a, accounts (expectations ifn cs) (receptions ifn ev) a /\
            reported_missing ifn ev = map frame_of (unsatisfied (expectations ifn cs) a).
Proof.
  intros ws e cs r ev ifn HR HE. destruct (run_rx _ _ _ _ _ _ HR HE) as [es' [H1 H2]]. destruct (run_ready _ _ _ _ _ HR) as [HC _].
  destruct (accounted _ _ _ H1 (fresh_expectations _ _ HC)) as [a [A1 A2]]. exists a. split; [auto|congruence].
Qed.

(** *** Exact expectations (C42) *)
Definition exact1 (c : cmd) : Prop := exact c /\ is_some (c_buf c) = true.

Lemma exact_accepts : forall c b, exact1 c -> (accepts c b <-> frame_of c = b).
Proof.
  intros c b [[H1 [f [H2 H3]]] H4]. unfold accepts, frame_of. destruct (c_buf c) as [x|]; [|discriminate]. rewrite H1. split.
  - intros [_ [y [Y1 [Y2 Y3]]]]. congruence.
  - intros <-. split; [exists f; auto|]. exists x. auto.
Qed.

Lemma occ_cons : forall b x l, occurrences b (x :: l) = ((if list_eq_dec Z.eq_dec x b then 1 else 0) + occurrences b l)%nat.
Proof. intros b x l. unfold occurrences. cbn [count_occ]. destruct (list_eq_dec Z.eq_dec x b); lia. Qed.

Lemma occ_app : forall b l k, occurrences b (l ++ k) = (occurrences b l + occurrences b k)%nat.
Proof. intros b l k. unfold occurrences. apply count_occ_app. Qed.

Lemma occ_zero : forall b l, (forall x, In x l -> x <> b) -> occurrences b l = 0%nat.
Proof. intros b l H. unfold occurrences. apply count_occ_not_In. intros X. apply (H b X). auto. Qed.

Lemma waiting_mid : forall l c q, waiting (l ++ c :: q) = waiting l ++ (if c_done c then waiting q else c :: waiting q).
Proof. intros l c q. unfold waiting. rewrite filter_mid. destruct (c_done c); auto. Qed.

Lemma rxpath_counts : forall es es' rcs, rxpath es es' rcs -> Forall exact1 es -> forall b,
  occurrences b (map snd (filter (fun p => negb (fst p)) rcs)) = (occurrences b (map snd rcs) - occurrences b (map frame_of (waiting es)))%nat /\
  occurrences b (map frame_of (waiting es')) = (occurrences b (map frame_of (waiting es)) - occurrences b (map snd rcs))%nat.
Proof.
  intros es es' rcs H. induction H as [es|l c q b0 es' rcs Hd Ha Hl H IH|es b0 es' rcs Hm H IH]; intros HX b.
  - cbn. lia.
  - assert (HC : exact1 c) by (apply Forall_app in HX; destruct HX as [_ HX]; apply (Forall_inv HX)).
    assert (HX' : Forall exact1 (l ++ set_done c :: q)). { apply Forall_app in HX. destruct HX as [X1 X2]. apply Forall_app. split; [auto|]. constructor; [exact HC|apply (Forall_inv_tail X2)]. }
    destruct (IH HX' b) as [I1 I2]. apply (exact_accepts _ _ HC) in Ha. subst b0. rewrite !waiting_mid in *. rewrite Hd in *. cbn [set_done c_done] in I1, I2. cbn [map filter fst snd negb].
    rewrite map_app, occ_app in *. cbn [map] in *. rewrite !occ_cons. destruct (list_eq_dec Z.eq_dec (frame_of c) b); lia.
  - destruct (IH HX b) as [I1 I2]. cbn [map filter fst snd negb]. rewrite !occ_cons. rewrite I1, I2. destruct (list_eq_dec Z.eq_dec b0 b) as [->|Hn]; [|lia].
    assert (HZ : occurrences b (map frame_of (waiting es)) = 0%nat).
    { apply occ_zero. intros x Hx. apply in_map_iff in Hx. destruct Hx as [c [<- Hc]]. unfold waiting in Hc. apply filter_In in Hc. destruct Hc as [Hc1 Hc2]. intros X. apply (Hm c Hc1); [destruct (c_done c); [discriminate|auto]|].
      rewrite Forall_forall in HX. apply exact_accepts; auto. }
    rewrite HZ. lia.
Qed.

Lemma waiting_fresh : forall es, Forall (fun c => c_done c = false) es -> waiting es = es.
Proof. intros es H. unfold waiting. apply filter_all. intros x Hx. rewrite Forall_forall in H. rewrite H; auto. Qed.

Lemma expectations_exact1 : forall ifn cs, Forall exact (expectations ifn cs) -> Forall exact1 (expectations ifn cs).
Proof.
  intros ifn cs H. rewrite Forall_forall in *. intros c Hc. split; [auto|]. unfold expectations in Hc. apply filter_In in Hc. destruct Hc as [_ Hc]. apply andb_prop in Hc. tauto.
Qed.

Lemma exact_counts : forall ws e cs r ev ifn, runs ws e cs r ev -> no_echo ifn cs ev -> Forall exact (expectations ifn cs) -> forall b,
  let expected := map frame_of (expectations ifn cs) in
  occurrences b (unexpected ifn ev) = (occurrences b (received ifn ev) - occurrences b expected)%nat /\
  occurrences b (reported_missing ifn ev) = (occurrences b expected - occurrences b (received ifn ev))%nat.
Proof.
  intros ws e cs r ev ifn HR HE HX b. destruct (run_rx _ _ _ _ _ _ HR HE) as [es' [H1 H2]]. destruct (run_ready _ _ _ _ _ HR) as [HC _].
  destruct (rxpath_counts _ _ _ H1 (expectations_exact1 _ _ HX) b) as [I1 I2]. rewrite (waiting_fresh (expectations ifn cs)) in * by (apply fresh_expectations; auto). rewrite H2. auto.
Qed.

Lemma occ_nil : forall l, (forall b, occurrences b l = 0%nat) -> l = [].
Proof. intros [|x l] H; [auto|]. specialize (H x). rewrite occ_cons in H. destruct (list_eq_dec Z.eq_dec x x); [lia|congruence]. Qed.

Lemma occ_perm : forall l k, (forall b, occurrences b l = occurrences b k) <-> Permutation l k.
Proof. intros l k. rewrite (Permutation_count_occ (list_eq_dec Z.eq_dec)). unfold occurrences. tauto. Qed.

Lemma sum_zero : forall l, sum l = 0%nat <-> Forall (fun x => x = 0%nat) l.
Proof. induction l as [|x l IH]; [split; [constructor|auto]|]. unfold sum in *. cbn [fold_right]. rewrite Forall_cons_iff, <- IH. lia. Qed.

Lemma not_if_nil : forall ws e cs r ev ifn, runs ws e cs r ev -> ~ In ifn (interfaces cs) -> receptions ifn ev = [] /\ reported_missing ifn ev = [] /\ expectations ifn cs = [].
Proof.
  intros ws e cs r ev ifn HR HI. destruct (run_struct _ _ _ _ _ HR) as [n [rs [rs' [HG [_ [_ [_ [HN _]]]]]]]]. rewrite <- (receptions_on ifn ev), <- (missing_on ifn ev), (HN _ HI). split; [auto|split; [auto|]].
  destruct (in_interfaces cs ifn) as [X|[i X]]; [|destruct HI; eapply nth_error_In; eauto]. unfold expectations. destruct (commands_on ifn cs) as [|c l]; [auto|]. destruct (X c). left. auto.
Qed.

(** C42 *)
Lemma exact_verdict : forall ws e cs r ev, runs ws e cs r ev -> (forall ifn, no_echo ifn cs ev /\ Forall exact (expectations ifn cs)) ->
  (r = 0 <-> forall ifn, Permutation (received ifn ev) (map frame_of (expectations ifn cs))).
Proof.
  intros ws e cs r ev HR HX. rewrite (total_errors _ _ _ _ _ HR). split.
  - intros HZ ifn. apply occ_perm. intros b. destruct (HX ifn) as [HE HF]. destruct (exact_counts _ _ _ _ _ _ HR HE HF b) as [I1 I2].
    assert (HU : length (unexpected ifn ev) = 0%nat /\ length (reported_missing ifn ev) = 0%nat).
    { destruct (in_dec String.string_dec ifn (interfaces cs)) as [X|X].
      - assert (HS : sum (map (fun ifn => (length (unexpected ifn ev) + length (reported_missing ifn ev))%nat) (interfaces cs)) = 0%nat) by lia. apply sum_zero in HS. rewrite Forall_map, Forall_forall in HS. specialize (HS _ X). cbn beta in HS. lia.
      - destruct (not_if_nil _ _ _ _ _ _ HR X) as [X1 [X2 _]]. unfold unexpected. rewrite X1, X2. auto. }
    destruct HU as [HU1 HU2]. apply length_zero_iff_nil in HU1, HU2. rewrite HU1 in I1. rewrite HU2 in I2. cbn in I1, I2. lia.
  - intros HP. assert (HS : sum (map (fun ifn => (length (unexpected ifn ev) + length (reported_missing ifn ev))%nat) (interfaces cs)) = 0%nat); [|lia]. apply sum_zero. rewrite Forall_map, Forall_forall. intros ifn _.
    destruct (HX ifn) as [HE HF]. assert (HU : unexpected ifn ev = [] /\ reported_missing ifn ev = []).
    { split; apply occ_nil; intros b; destruct (exact_counts _ _ _ _ _ _ HR HE HF b) as [I1 I2]; pose proof (proj2 (occ_perm _ _) (HP ifn) b); lia. }
    destruct HU as [-> ->]. auto.
Qed.

(** *** Arrival order (C43) *)
(** [separated], for the frames of a list. *)
Definition separated_on (B : list (list Z)) (exps : list cmd) : Prop :=
  forall c d b b', In c exps -> In d exps -> In b B -> In b' B -> accepts c b -> accepts d b -> accepts c b' -> accepts d b'.

Lemma rxpath_order : forall es es' rcs, rxpath es es' rcs -> separated_on (map snd rcs) (waiting es) ->
  forall W, Permutation (waiting es) W -> Forall2 accepts W (map snd rcs) -> Forall (fun p => fst p = true) rcs /\ waiting es' = [].
Proof.
  intros es es' rcs H. induction H as [es|l c q b es' rcs Hd Ha Hl H IH|es b es' rcs Hm H IH]; intros HS W HP HF.
  - cbn [map] in HF. inversion HF. subst W. apply Permutation_sym, Permutation_nil in HP. auto.
  - cbn [map snd] in HF. destruct W as [|c0 W1]; [inversion HF|]. assert (F1 : accepts c0 b) by (inversion HF; auto). assert (F2 : Forall2 accepts W1 (map snd rcs)) by (inversion HF; auto). clear HF.
    assert (HW : waiting (l ++ c :: q) = waiting l ++ c :: waiting q) by (rewrite waiting_mid, Hd; auto). assert (HW1 : waiting (l ++ set_done c :: q) = waiting l ++ waiting q) by (rewrite waiting_mid; auto).
    assert (HM : Permutation (c :: waiting l ++ waiting q) (c0 :: W1)). { rewrite <- HP, HW. apply Permutation_middle. }
    assert (HS1 : separated_on (map snd rcs) (waiting (l ++ set_done c :: q))). { rewrite HW1. intros x y b1 b2 Hx Hy Hb1 Hb2. apply HS; [rewrite HW; apply in_or_app; apply in_app_or in Hx; cbn [In]; tauto|rewrite HW; apply in_or_app; apply in_app_or in Hy; cbn [In]; tauto|right; exact Hb1|right; exact Hb2]. }
    assert (HIc : In c (waiting (l ++ c :: q))) by (rewrite HW; apply in_or_app; right; left; auto).
    assert (HI0 : In c0 (waiting (l ++ c :: q))) by (eapply Permutation_in; [apply Permutation_sym; exact HP|left; auto]).
    assert (HX : exists W', Permutation (waiting (l ++ set_done c :: q)) W' /\ Forall2 accepts W' (map snd rcs)).
    { rewrite HW1. assert (HCI : In c (c0 :: W1)) by (eapply Permutation_in; [exact HM|left; auto]). destruct HCI as [->|HCI].
      - exists W1. split; [eapply Permutation_cons_inv; eauto|auto].
      - apply in_split in HCI. destruct HCI as [A [B ->]]. exists (A ++ c0 :: B). split.
        + apply (Permutation_cons_inv (a := c)). rewrite HM. rewrite <- (Permutation_middle A B c), <- (Permutation_middle A B c0). apply perm_swap.
        + apply Forall2_app_inv_l in F2. destruct F2 as [B1 [B2 [F2 [F3 F4]]]]. assert (HB : forall x, In x B2 -> In x (map snd rcs)) by (intros x Hx; rewrite F4; apply in_or_app; right; exact Hx). rewrite F4. apply Forall2_app; [auto|]. destruct B2 as [|b' B2]; [inversion F3|].
          assert (G1 : accepts c b') by (inversion F3; auto). assert (G2 : Forall2 accepts B B2) by (inversion F3; auto). constructor; [|auto]. eapply (HS c c0 b b'); eauto; [left; reflexivity|right; apply HB; left; reflexivity]. }
    destruct HX as [W' [X1 X2]]. destruct (IH HS1 W' X1 X2) as [I1 I2]. split; [constructor; auto|auto].
  - exfalso. cbn [map snd] in HF. destruct W as [|c0 W1]; [inversion HF|]. assert (F1 : accepts c0 b) by (inversion HF; auto).
    assert (HI0 : In c0 (waiting es)) by (eapply Permutation_in; [apply Permutation_sym; exact HP|left; auto]). unfold waiting in HI0. apply filter_In in HI0. destruct HI0 as [X1 X2].
    apply (Hm c0 X1); [destruct (c_done c0); [discriminate|auto]|auto].
Qed.

Lemma order_independent_on : forall ws e cs r ev ifn W, runs ws e cs r ev -> no_echo ifn cs ev -> separated_on (received ifn ev) (expectations ifn cs) ->
  Permutation (expectations ifn cs) W -> Forall2 accepts W (received ifn ev) -> unexpected ifn ev = [] /\ reported_missing ifn ev = [].
Proof.
  intros ws e cs r ev ifn W HR HE HS HP HF. destruct (run_rx _ _ _ _ _ _ HR HE) as [es' [H1 H2]]. destruct (run_ready _ _ _ _ _ HR) as [HC _].
  pose proof (waiting_fresh _ (fresh_expectations _ ifn HC)) as HW. rewrite <- HW in HS, HP. destruct (rxpath_order _ _ _ H1 HS W HP HF) as [I1 I2]. rewrite H2, I2. split; [|auto].
  unfold unexpected. replace (filter (fun p => negb (fst p)) (receptions ifn ev)) with (@nil (bool * list Z)); [auto|]. clear -I1. induction I1 as [|x l H1 H IH]; [auto|]. cbn [filter]. rewrite H1. auto.
Qed.

Lemma order_independent : forall ws e cs r ev ifn W, runs ws e cs r ev -> no_echo ifn cs ev -> separated (expectations ifn cs) ->
  Permutation (expectations ifn cs) W -> Forall2 accepts W (received ifn ev) -> unexpected ifn ev = [] /\ reported_missing ifn ev = [].
Proof. intros ws e cs r ev ifn W HR HE HS. apply (order_independent_on _ _ _ _ _ _ W HR HE). intros c d b b' Hc Hd _ _. apply HS; auto. Qed.

(** *** Independence of the interfaces (C44) *)
Lemma first_unique : forall (P : cmd -> Prop) l c q l' c' q', l ++ c :: q = l' ++ c' :: q' -> P c -> P c' -> (forall x, In x l -> ~ P x) -> (forall x, In x l' -> ~ P x) -> l = l' /\ c = c' /\ q = q'.
Proof.
  intros P. induction l as [|x l IH]; intros c q [|x' l'] c' q' E Hc Hc' Hl Hl'; cbn [app] in E.
  - split; [auto|]. split; congruence.
  - exfalso. assert (c = x') by congruence. subst. apply (Hl' x'); [left; auto|auto].
  - exfalso. assert (x = c') by congruence. subst. apply (Hl c'); [left; auto|auto].
  - assert (x = x') by congruence. subst x'. destruct (IH c q l' c' q') as [A [B C]]; try congruence; auto; [intros y Hy; apply Hl; right; auto|intros y Hy; apply Hl'; right; auto|]. split; [congruence|auto].
Qed.

Lemma rxpath_det : forall es es1 rcs1, rxpath es es1 rcs1 -> forall es2 rcs2, rxpath es es2 rcs2 -> map snd rcs1 = map snd rcs2 -> es1 = es2 /\ rcs1 = rcs2.
Proof.
  intros es es1 rcs1 H. induction H as [es|l c q b es' rcs Hd Ha Hl H IH|es b es' rcs Hm H IH]; intros es2 rcs2 K E.
  - destruct rcs2; [|discriminate]. inversion K. auto.
  - remember (l ++ c :: q) as es0. destruct K as [es0|l' c' q' b' es2 rcs2 Hd' Ha' Hl' K|es0 b' es2 rcs2 Hm' K]; [discriminate| |].
    + assert (b' = b) by (cbn in E; congruence). subst b'. assert (E' : map snd rcs = map snd rcs2) by (cbn in E; congruence).
      destruct (first_unique (fun x => c_done x = false /\ accepts x b) l c q l' c' q') as [-> [-> ->]]; auto; [intros x Hx [X1 X2]; apply (Hl x); auto|intros x Hx [X1 X2]; apply (Hl' x); auto|].
      destruct (IH _ _ K E') as [-> ->]. auto.
    + exfalso. assert (b' = b) by (cbn in E; congruence). subst. apply (Hm' c); auto. apply in_or_app. right. left. auto.
  - destruct K as [es|l' c' q' b' es2 rcs2 Hd' Ha' Hl' K|es b' es2 rcs2 Hm' K]; [discriminate| |].
    + exfalso. assert (b' = b) by (cbn in E; congruence). subst. apply (Hm c'); auto. apply in_or_app. right. left. auto.
    + assert (b' = b) by (cbn in E; congruence). subst b'. assert (E' : map snd rcs = map snd rcs2) by (cbn in E; congruence). destruct (IH _ _ K E') as [-> ->]. auto.
Qed.

Lemma interfaces_independent : forall ws1 e1 cs1 r1 ev1 ws2 e2 cs2 r2 ev2 ifn, runs ws1 e1 cs1 r1 ev1 -> runs ws2 e2 cs2 r2 ev2 ->
  commands_on ifn cs1 = commands_on ifn cs2 -> received ifn ev1 = received ifn ev2 -> no_echo ifn cs1 ev1 ->
  receptions ifn ev1 = receptions ifn ev2 /\ reported_missing ifn ev1 = reported_missing ifn ev2.
Proof.
  intros ws1 e1 cs1 r1 ev1 ws2 e2 cs2 r2 ev2 ifn R1 R2 HC HV HE. assert (HE2 : no_echo ifn cs2 ev2). { unfold no_echo, transmissions in *. rewrite <- HC, <- HV. auto. }
  destruct (run_rx _ _ _ _ _ _ R1 HE) as [es1 [A1 A2]]. destruct (run_rx _ _ _ _ _ _ R2 HE2) as [es2 [B1 B2]]. unfold expectations in *. rewrite HC in A1.
  destruct (rxpath_det _ _ _ A1 _ _ B1 HV) as [-> ->]. split; congruence.
Qed.

(** Captures that end whenever they like: the test that goes on meanwhile. *)

From Verif Require Import BaseFacts PMain PChildren PChildren2 PChildren3 PChildren4 PChildren5.

Definition selects (l : list instr) : list (nat * nat) := flat_map (fun x => match x with Select k n => [(k, n)] | _ => [] end) l.
Lemma selects_app : forall a b, selects (a ++ b) = selects a ++ selects b.
Proof. intros. unfold selects. apply flat_map_app. Qed.
Lemma selects_cons : forall x l, selects (x :: l) = selects [x] ++ selects l.
Proof. intros. apply (selects_app [x] l). Qed.

Lemma rounds_app : forall a b, rounds_done (a ++ b) = (rounds_done a + rounds_done b)%nat.
Proof. intros. unfold rounds_done. rewrite filter_app, app_length. auto. Qed.

Definition no_loop (h : happening) : Prop := match h with Round _ | Interrupted _ => False | _ => True end.
Lemma no_loop_rounds : forall ev, Forall no_loop ev -> rounds_done ev = 0%nat.
Proof. induction ev as [|h ev IH]; intros H; [auto|]. pose proof (Forall_inv H) as A. pose proof (IH (Forall_inv_tail H)) as B. unfold rounds_done in *. cbn [filter]. destruct h; auto. destruct A. Qed.
Lemma no_loop_reaped : forall (dd : list (nat * Z * wstatus)), Forall no_loop (map (fun d => Reaped (fst (fst d)) (snd (fst d))) dd).
Proof. induction dd; constructor; cbn; auto. Qed.

(** The receive loop: to come, or over. *)
Definition looping (N : nat) (m : machine) (tr : list happening) : Prop :=
  (exists k j, selects (m_code m) = [(k, j)] /\ (k + j = N)%nat /\ rounds_done tr = k /\ forall q, ~ In (Interrupted q) tr) \/
  (selects (m_code m) = [] /\ (rounds_done tr <= N)%nat /\ (rounds_done tr = N /\ (forall q, ~ In (Interrupted q) tr) \/ In (Interrupted (rounds_done tr)) tr)).

Lemma looping_same : forall N m m' tr ev, looping N m tr -> selects (m_code m') = selects (m_code m) -> Forall no_loop ev -> looping N m' (tr ++ ev).
Proof.
  intros N m m' tr ev H Hs He. pose proof (no_loop_rounds _ He) as Hr. assert (Hi : forall q, In (Interrupted q) (tr ++ ev) -> In (Interrupted q) tr) by (intros q X; apply in_app_or in X; destruct X as [X|X]; [auto|]; rewrite Forall_forall in He; destruct (He _ X)).
  unfold looping. rewrite Hs, rounds_app, Hr, Nat.add_0_r. destruct H as [(k & j & A & B & C & D)|(A & B & C)].
  - left. exists k, j. repeat (split; [solve [auto]|]). intros q X. exact (D q (Hi q X)).
  - right. split; [auto|]. split; [auto|]. destruct C as [[C D]|C]; [left; split; [auto|intros q X; exact (D q (Hi q X))]|right; apply in_or_app; auto].
Qed.

Lemma looping_step : forall N ch m tr m' ev, looping N m tr -> step ch m = Some (m', ev) -> looping N m' (tr ++ ev).
Proof.
  intros N ch m tr m' ev H E. apply step_stepped in E.
  assert (S0 : forall x rest, selects [x] = [] -> selects rest = selects (x :: rest)) by (intros x rest Hx; rewrite (selects_cons x), Hx; auto).
  destruct E; try (eapply looping_same; [exact H|cbn [m_code]; apply S0; reflexivity|repeat constructor]; fail).
  - eapply looping_same; [exact H|reflexivity|repeat constructor].
  - (* over *) rewrite app_nil_r. destruct H as [(j & q & A & B & C & D)|(A & _)]; cbn [m_code] in A; rewrite selects_cons in A; cbn [selects flat_map app] in A; [|discriminate]. injection A as <- <- A. fold (selects rest) in A. right. cbn [m_code]. split; [auto|]. split; [lia|]. left. split; [lia|auto].
  - (* a round *) destruct H as [(j & q & A & B & C & D)|(A & _)]; cbn [m_code] in A; rewrite selects_cons in A; cbn [selects flat_map app] in A; [|discriminate]. injection A as <- <- A. fold (selects rest) in A. left. exists (S k), n. cbn [m_code]. rewrite selects_cons, A. split; [auto|]. split; [lia|]. rewrite rounds_app. split; [cbn; lia|]. intros q X. apply in_app_or in X. destruct X as [X|[X|[]]]; [exact (D q X)|discriminate].
  - eapply looping_same; [exact H| |repeat constructor]. cbn [m_code]. destruct (existsb cap_running cs); [rewrite (selects_cons (Nap Flush)), (selects_cons Count); auto|rewrite (selects_cons Count); auto].
  - eapply looping_same; [exact H|cbn [m_code]; rewrite (selects_cons (Stop i sig)); auto|]. destruct (nth_error cs i) as [c|]; [destruct (cap_running c)|]; repeat constructor.
  - eapply looping_same; [exact H| |constructor; [exact I|apply no_loop_reaped]]. cbn [m_code]. destruct (existsb cap_running cs'); [rewrite (selects_cons (Poll n)), (selects_cons (Poll (S n))); auto|rewrite (selects_cons (Poll (S n))); auto].
  - eapply looping_same; [exact H|cbn [m_code]; rewrite (selects_cons (Note b)); auto|]. destruct b; repeat constructor.
  - eapply looping_same; [exact H|reflexivity|repeat constructor].
  - destruct H0 as [X|X]; [apply pair_inj in X; destruct X as [-> ->]; eapply looping_same; [exact H|reflexivity|constructor]|]. destruct code as [|x rest]; cbn [interrupt] in X; [discriminate|]. destruct x; try discriminate; apply some_inj in X; apply pair_inj in X; destruct X as [<- <-].
    + eapply looping_same; [exact H|cbn [m_code]; rewrite (selects_cons (Nap n)); auto|repeat constructor].
    + destruct H as [(j & q & A & B & C & D)|(A & _)]; cbn [m_code] in A; rewrite selects_cons in A; cbn [selects flat_map app] in A; [|discriminate]. injection A as <- <- A. fold (selects rest) in A. right. cbn [m_code]. rewrite rounds_app. split; [auto|]. change (rounds_done [Interrupted k]) with 0%nat. rewrite Nat.add_0_r. split; [lia|]. right. apply in_or_app. right. left. congruence.
  - pose proof (no_loop_reaped dd) as Nr. pose proof (no_loop_rounds _ Nr) as Nz. destruct H0 as [X|X]; [apply pair_inj in X; destruct X as [-> ->]; rewrite app_nil_r; eapply looping_same; [exact H|reflexivity|auto]|]. destruct code as [|x rest]; cbn [interrupt] in X; [discriminate|]. destruct x; try discriminate; apply some_inj in X; apply pair_inj in X; destruct X as [<- <-].
    + eapply looping_same; [exact H|cbn [m_code]; rewrite (selects_cons (Nap n)); auto|]. apply Forall_app. split; [auto|repeat constructor].
    + destruct H as [(j & q & A & B & C & D)|(A & _)]; cbn [m_code] in A; rewrite selects_cons in A; cbn [selects flat_map app] in A; [|discriminate]. injection A as <- <- A. fold (selects rest) in A. right. cbn [m_code]. rewrite !rounds_app, Nz. split; [auto|]. change (rounds_done [Interrupted k]) with 0%nat. rewrite !Nat.add_0_r. split; [lia|]. right. apply in_or_app. right. apply in_or_app. right. left. congruence.
Qed.

Lemma looping_begin : forall cmds n, looping n (begin cmds n) [].
Proof.
  intros cmds n. left. exists 0%nat, n. split; [|split; [lia|split; [auto|intros q []]]]. unfold begin, code_for. cbn [m_code]. rewrite !selects_app.
  assert (A : forall l, selects (flat_map (fun i => [Install Reaping; Fork i]) l) = []) by (induction l as [|i l IH]; [auto|]; cbn [flat_map]; rewrite selects_app, IH; auto).
  assert (B : forall s l, selects (map (fun i => Stop i s) l) = []) by (intros s; induction l as [|i l IH]; auto).
  rewrite A, !B. destruct (0 <? length cmds)%nat; auto.
Qed.

Lemma looping_end : forall cmds n tr, completes cmds n tr -> (rounds_done tr <= n)%nat /\ (rounds_done tr = n /\ (forall q, ~ In (Interrupted q) tr) \/ In (Interrupted (rounds_done tr)) tr).
Proof.
  intros cmds n tr (sch & m & E & Hd). assert (L : looping n m tr) by (revert sch m tr E Hd; intros sch m tr E _; revert sch m tr E; apply (run_reach (looping n)); [apply looping_begin|intros; eapply looping_step; eauto]).
  destruct L as [(k & j & A & _)|(_ & L)]; [rewrite Hd in A; discriminate|auto].
Qed.

Lemma ended_before : forall cmds n tr, happens cmds n tr -> past (fun a h => match h with Woken _ | Interrupted _ => exists i p st, In (Ended i p st) a | _ => True end) tr.
Proof. intros cmds n tr (sch & m & E). destruct (reach_reaped _ _ _ _ _ E) as (_ & _ & _ & P & _). exact P. Qed.

(** ** The program *)

Lemma concurrent_inv : forall args s sch st ev tr, concurrent args s sch = Ret (Some (st, ev, tr)) ->
  exists t caps ws cs r, getopt args = ORun t caps ws /\ parse_cmds ws = Ret (Some cs) /\ completes (map (fun c => fst (capture_add c)) caps) (length (s_rounds s)) tr /\
  exec_cmds cs (MkEnv (s_open s) (firstn (rounds_done tr) (e_rounds (env_of t s)))) = Ret (r, ev) /\ st = exit_status r.
Proof.
  intros args s sch st ev tr H. unfold concurrent in H. destruct (getopt args) as [|caps|t caps ws]; [discriminate|discriminate|]. binv H. destruct a as [cs|]; [|discriminate].
  destruct (run sch _) as [[[code cs0 lv dd pe sg] tr0]|] eqn:Er; [|discriminate]. destruct code; [|discriminate]. binv H. destruct a as [r ev0]. apply ret_inj, some_inj in H. apply pair_inj in H. destruct H as [H <-]. apply pair_inj in H. destruct H as [<- <-].
  exists t, caps, ws, cs, r. split; [auto|]. split; [auto|]. split; [exists sch; eexists; split; [exact Er|auto]|]. split; [auto|auto].
Qed.

Lemma cut_short : forall args s sch st ev tr, concurrent args s sch = Ret (Some (st, ev, tr)) ->
  exists t, (exists caps ws, getopt args = ORun t caps ws) /\ let e := env_of t s in
  exists k, (k <= length (s_rounds s))%nat /\ ef_main args (MkEnv (e_open e) (firstn k (e_rounds e))) = Ret (st, ev) /\
  (k = length (s_rounds s) \/ exists a b i p x, tr = a ++ Interrupted k :: b /\ In (Ended i p x) a).
Proof.
  intros args s sch st ev tr H. destruct (concurrent_inv _ _ _ _ _ _ H) as (t & caps & ws & cs & r & A & B & C & D & ->). exists t. split; [eauto|]. cbn zeta. destruct (looping_end _ _ _ C) as [L1 L2]. exists (rounds_done tr). split; [auto|]. split.
  - unfold ef_main. rewrite A. unfold argc_cmds. rewrite B. cbn [bind]. change (e_open (env_of t s)) with (s_open s). rewrite D. auto.
  - destruct L2 as [[L2 _]|L2]; [auto|right]. apply in_split in L2. destruct L2 as (a & b & E). destruct C as (sch' & m & C & _). destruct (ended_before _ _ _ (ex_intro _ sch' (ex_intro _ m C)) a _ b E) as (i & p & x & X). exists a, b, i, p, x. auto.
Qed.

Lemma undisturbed : forall args s sch st ev tr, concurrent args s sch = Ret (Some (st, ev, tr)) ->
  (forall a k b i p x, tr = a ++ Interrupted k :: b -> ~ In (Ended i p x) a) -> exists t, (exists caps ws, getopt args = ORun t caps ws) /\ ef_main args (env_of t s) = Ret (st, ev).
Proof.
  intros args s sch st ev tr H N. destruct (cut_short _ _ _ _ _ _ H) as (t & G & k & Hk & E & [L|(a & b & i & p & x & L1 & L2)]); [|destruct (N a k b i p x L1 L2)].
  exists t. split; [auto|]. rewrite <- E. f_equal. unfold env_of. cbn [e_open e_rounds]. rewrite firstn_all2; [auto|]. rewrite map_length. lia.
Qed.

Lemma no_children : forall n tr, happens [] n tr -> forall i p st, ~ In (Ended i p st) tr.
Proof.
  intros n tr (sch & m & E) i p st X. destruct (both_run _ _ _ _ _ E) as [T K]. cbn [length] in T. assert (F : In (i, p) (forked tr)) by (destruct (ki_wait _ _ K i p st X) as [Y|Y]; [eapply (ki_dead _ _ K); eauto|apply (ki_waited _ _ K); auto]).
  apply (in_map fst) in F. pose proof (ti_range _ _ _ T i (in_or_app _ _ _ (or_introl F))). lia.
Qed.

Lemma without_captures : forall args s sch st ev tr t ws, concurrent args s sch = Ret (Some (st, ev, tr)) -> getopt args = ORun t [] ws -> ef_main args (env_of t s) = Ret (st, ev).
Proof.
  intros args s sch st ev tr t ws H G. destruct (undisturbed _ _ _ _ _ _ H) as (t' & (caps & ws' & G') & E); [|assert (t' = t) by congruence; subst; auto].
  intros a k b i p x Ht X. destruct (concurrent_inv _ _ _ _ _ _ H) as (t1 & caps & ws1 & cs & r & A & B & C & _). rewrite G in A. injection A as <- <- <-. destruct C as (sch' & m & C & _). eapply (no_children _ tr (ex_intro _ sch' (ex_intro _ m C)) i p x). rewrite Ht. apply in_or_app. auto.
Qed.

(** ** The end is reached *)

Lemma finishes : forall cmds n sch m tr, run sch (begin cmds n) = Some (m, tr) ->
  exists k m' tr', run (repeat (Go (-1)) k) m = Some (m', tr') /\ m_code m' = [].
Proof.
  intros cmds n sch m tr E. remember (Z.to_nat (Z.of_nat n + 8 * Z.of_nat (length cmds) + 20011) - length sch)%nat as d eqn:Ed. revert sch m tr E Ed. induction d as [d IH] using lt_wf_ind. intros sch m tr E Ed.
  pose proof (always_ends _ _ _ _ _ E) as L. destruct (m_code m) as [|x rest] eqn:Ec; [exists 0%nat, m, []; auto|].
  destruct (never_stuck m) as (m1 & ev & S1); [congruence|]. assert (E1 : run (sch ++ [Go (-1)]) (begin cmds n) = Some (m1, tr ++ ev)) by (eapply run_app; [exact E|cbn [run]; rewrite S1, app_nil_r; auto]).
  pose proof (always_ends _ _ _ _ _ E1) as L1. rewrite app_length in L1. cbn [length] in L1. assert (D : (Z.to_nat (Z.of_nat n + 8 * Z.of_nat (length cmds) + 20011) - length (sch ++ [Go (-1)]) < d)%nat) by (rewrite app_length; cbn [length]; lia).
  destruct (IH _ D _ _ _ E1 eq_refl) as (k & m' & tr' & R & Hc). exists (S k), m', (ev ++ tr'). split; [|auto]. cbn [repeat run]. rewrite S1, R. auto.
Qed.

(** What wakes the program from its sleep. *)
Lemma sleeps : forall cmds n tr a w b, happens cmds n tr -> tr = a ++ Woken w :: b -> exists i p st, In (Ended i p st) a.
Proof. intros cmds n tr a w b H Ht. exact (ended_before _ _ _ H a _ b Ht). Qed.

(** For examples. *)
Fixpoint noted_in (seen : list nat) (tr : list happening) : bool :=
  match tr with
  | [] => true
  | Recorded i :: r => noted_in (i :: seen) r
  | Ended i _ _ :: r => existsb (Nat.eqb i) seen && noted_in seen r
  | _ :: r => noted_in seen r
  end.
Lemma noted_in_ok : forall tr seen, noted_in seen tr = true -> forall t1 i p st t2, tr = t1 ++ Ended i p st :: t2 -> In i seen \/ In (Recorded i) t1.
Proof.
  induction tr as [|h tr IH]; intros seen H t1 i p st t2 Ht; [destruct t1; discriminate|]. destruct t1 as [|h1 t1]; cbn [app] in Ht.
  - injection Ht as -> _. cbn [noted_in] in H. apply andb_true_iff in H. destruct H as [H _]. apply existsb_exists in H. destruct H as (j & Hj & X). apply Nat.eqb_eq in X. subst j. auto.
  - injection Ht as <- ->. assert (X : In i seen \/ In (Recorded i) t1 \/ h = Recorded i); [|cbn [In]; intuition auto]. destruct h; cbn [noted_in] in H; try (destruct (IH _ H _ _ _ _ _ eq_refl); auto; fail).
    + destruct (IH _ H _ _ _ _ _ eq_refl) as [[ -> |X]|X]; auto.
    + apply andb_true_iff in H. destruct H as [_ H]. destruct (IH _ H _ _ _ _ _ eq_refl); auto.
Qed.
Lemma noted_check : forall tr, noted_in [] tr = true -> noted tr.
Proof. intros tr H t1 i p st t2 Ht. destruct (noted_in_ok _ _ H _ _ _ _ _ Ht) as [[]|X]; auto. Qed.

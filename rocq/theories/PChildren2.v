(** Captures that end whenever they like: what the program knows of its children. *)

From Coq Require Import Permutation.
From Verif Require Import BaseFacts PChildren.

Definition settled (x : instr) : Prop := match x with SetPid _ _ | SetRunning _ => False | _ => True end.
Definition forks (l : list instr) : list nat := flat_map (fun x => match x with Fork i => [i] | _ => [] end) l.

(** The code: a start that is underway, then steps of other kinds. *)
Inductive shape : list instr -> Prop :=
| Sh_0 : forall l, Forall settled l -> shape l
| Sh_1 : forall i l, Forall settled l -> shape (SetRunning i :: l)
| Sh_2 : forall i p l, Forall settled l -> shape (SetPid i p :: SetRunning i :: l).

Definition heads (tr : list happening) (l : list instr) : Prop :=
  match l with
  | SetPid i p :: _ => In (i, p) (forked tr) /\ ~ In (Recorded i) tr
  | SetRunning i :: _ => In i (map fst (forked tr)) /\ ~ In (Recorded i) tr
  | _ => True
  end.

Record tidy (N : nat) (m : machine) (tr : list happening) : Prop := MkTidy {
  ti_shape : shape (m_code m);
  ti_head : heads tr (m_code m);
  ti_once : NoDup (map fst (forked tr) ++ forks (m_code m));
  ti_range : forall i, In i (map fst (forked tr) ++ forks (m_code m)) -> (i < N)%nat;
  ti_len : length (m_caps m) = N;
  ti_recorded : forall i, In (Recorded i) tr -> In i (map fst (forked tr)) }.

Lemma forked_app : forall a b, forked (a ++ b) = forked a ++ forked b.
Proof. intros. unfold forked. apply flat_map_app. Qed.
Lemma forks_app : forall a b, forks (a ++ b) = forks a ++ forks b.
Proof. intros. unfold forks. apply flat_map_app. Qed.

Lemma forked_reaped : forall (dd : list (nat * Z * wstatus)), forked (map (fun d => Reaped (fst (fst d)) (snd (fst d))) dd) = [].
Proof. induction dd as [|d dd IH]; auto. Qed.
Lemma interrupt_forked : forall code code' ev, (code', ev) = (code, []) \/ interrupt code = Some (code', ev) -> forked ev = [].
Proof.
  intros code code' ev [E|E]; [apply pair_inj in E; destruct E; subst; auto|]. destruct code as [|[] ]; cbn [interrupt] in E; try discriminate; apply some_inj in E; apply pair_inj in E; destruct E; subst; auto.
Qed.
(** An interruption takes a step of the code away, or nothing. *)
Lemma interrupt_code : forall code code' ev, (code', ev) = (code, []) \/ interrupt code = Some (code', ev) -> code' = code \/ exists x, code = x :: code' /\ settled x /\ forks [x] = [].
Proof.
  intros code code' ev [E|E]; [apply pair_inj in E; destruct E; auto|]. destruct code as [|[] ]; cbn [interrupt] in E; try discriminate; apply some_inj in E; apply pair_inj in E; destruct E; subst; right; eexists; repeat (split; auto).
Qed.
Lemma interrupt_events : forall code code' ev, (code', ev) = (code, []) \/ interrupt code = Some (code', ev) -> Forall (fun h => match h with Woken _ | Interrupted _ => True | _ => False end) ev.
Proof.
  intros code code' ev [E|E]; [apply pair_inj in E; destruct E; subst; auto|]. destruct code as [|[] ]; cbn [interrupt] in E; try discriminate; apply some_inj in E; apply pair_inj in E; destruct E; subst; repeat constructor.
Qed.

Lemma shape_tail : forall x l, shape (x :: l) -> settled x -> Forall settled l.
Proof. intros x l H Hx. inversion H; subst; [eapply Forall_inv_tail; eauto|destruct Hx|destruct Hx]. Qed.
Lemma settled_heads : forall tr l, Forall settled l -> heads tr l.
Proof. intros tr [|[] l] H; cbn [heads]; auto; apply Forall_inv in H; destruct H. Qed.

(** Steps that do not fork, and do not record. *)
Definition dull (h : happening) : Prop := match h with Forked _ _ | Recorded _ => False | _ => True end.
Lemma dull_forked : forall ev, Forall dull ev -> forked ev = [].
Proof. induction ev as [|h ev IH]; intros H; [auto|]. pose proof (Forall_inv H) as A. pose proof (IH (Forall_inv_tail H)) as B. unfold forked in *. cbn [flat_map]. rewrite B. destruct h; auto. destruct A. Qed.
Lemma dull_recorded : forall i ev, Forall dull ev -> ~ In (Recorded i) ev.
Proof. intros i ev H HI. rewrite Forall_forall in H. apply (H _ HI). Qed.
Lemma dull_reaped : forall (dd : list (nat * Z * wstatus)), Forall dull (map (fun d => Reaped (fst (fst d)) (snd (fst d))) dd).
Proof. induction dd; constructor; cbn; auto. Qed.
Lemma dull_interrupt : forall code code' ev, (code', ev) = (code, []) \/ interrupt code = Some (code', ev) -> Forall dull ev.
Proof. intros code code' ev H. eapply Forall_impl; [|eapply interrupt_events; eauto]. intros []; cbn; auto; intros []. Qed.

Lemma heads_dull : forall tr ev l, Forall dull ev -> heads tr l -> heads (tr ++ ev) l.
Proof.
  intros tr ev l H Hl. destruct l as [|[] l]; cbn [heads] in *; auto; rewrite forked_app, (dull_forked ev H), app_nil_r; destruct Hl as [A B]; (split; [auto|]); intros HI; apply in_app_or in HI; destruct HI as [HI|HI]; [auto|exact (dull_recorded _ _ H HI)|auto|exact (dull_recorded _ _ H HI)].
Qed.

(** Most steps: nothing is forked or recorded, the code loses what is settled. *)
Lemma tidy_dull : forall N m m' tr ev, tidy N m tr -> Forall dull ev -> length (m_caps m') = length (m_caps m) -> forks (m_code m') = forks (m_code m) ->
  (m_code m' = m_code m \/ shape (m_code m') /\ heads (tr ++ ev) (m_code m')) -> tidy N m' (tr ++ ev).
Proof.
  intros N m m' tr ev [A B C D E F] Hd Hl Hf Hc. constructor.
  - destruct Hc as [Hc|[Hc _]]; [rewrite Hc; auto|auto].
  - destruct Hc as [Hc|[_ Hc]]; [rewrite Hc; apply heads_dull; auto|auto].
  - rewrite forked_app, (dull_forked _ Hd), app_nil_r, Hf. auto.
  - rewrite forked_app, (dull_forked _ Hd), app_nil_r, Hf. auto.
  - congruence.
  - intros i HI. rewrite forked_app, (dull_forked _ Hd), app_nil_r. apply in_app_or in HI. destruct HI as [HI|HI]; auto. destruct (dull_recorded _ _ Hd HI).
Qed.

(** One settled instruction goes. *)
Lemma tidy_drop : forall N x rest m m' tr ev, tidy N m tr -> m_code m = x :: rest -> m_code m' = rest -> settled x -> forks [x] = [] -> Forall dull ev -> length (m_caps m') = length (m_caps m) -> tidy N m' (tr ++ ev).
Proof.
  intros N x rest m m' tr ev T Hm Hm' Hx Hf Hd Hl. eapply tidy_dull; eauto.
  - rewrite Hm, Hm'. change (x :: rest) with ([x] ++ rest). rewrite forks_app, Hf. auto.
  - right. pose proof (ti_shape _ _ _ T) as S. rewrite Hm in S. pose proof (shape_tail _ _ S Hx) as S'. rewrite Hm'. split; [apply Sh_0; auto|apply settled_heads; auto].
Qed.

(** One settled instruction takes the place of another. *)
Lemma tidy_swap : forall N x y rest m m' tr ev, tidy N m tr -> m_code m = x :: rest -> m_code m' = y :: rest -> settled x -> settled y -> forks [x] = [] -> forks [y] = [] -> Forall dull ev -> length (m_caps m') = length (m_caps m) -> tidy N m' (tr ++ ev).
Proof.
  intros N x y rest m m' tr ev T Hm Hm' Hx Hy Hf Hf' Hd Hl. eapply tidy_dull; eauto.
  - rewrite Hm, Hm'. change (x :: rest) with ([x] ++ rest). change (y :: rest) with ([y] ++ rest). rewrite !forks_app, Hf, Hf'. auto.
  - right. pose proof (ti_shape _ _ _ T) as S. rewrite Hm in S. pose proof (shape_tail _ _ S Hx) as S'. rewrite Hm'. assert (S2 : Forall settled (y :: rest)) by (constructor; auto). split; [apply Sh_0; auto|apply settled_heads; auto].
Qed.

Lemma NoDup_app_remove_r : forall A (a b : list A), NoDup (a ++ b) -> NoDup a.
Proof.
  intros A a b H. induction a as [|x a IH]; [constructor|]. cbn [app] in H. inversion H as [|? ? N1 N2]; subst. constructor; auto. intros HI. apply N1. apply in_or_app. auto.
Qed.

Lemma tidy_step : forall N ch m tr m' ev, tidy N m tr -> step ch m = Some (m', ev) -> tidy N m' (tr ++ ev).
Proof.
  intros N ch m tr m' ev T E. apply step_stepped in E. destruct E.
  - eapply (tidy_drop N (Install d) rest); eauto; cbn; auto.
  - (* fork *) destruct T as [A B C D E F]. cbn [m_code m_caps] in *. constructor; cbn [m_code m_caps].
    + apply Sh_2. apply (shape_tail (Fork i)); cbn; auto.
    + cbn [heads]. rewrite forked_app. split; [apply in_or_app; right; left; auto|]. intros HI. apply in_app_or in HI. destruct HI as [HI|[HI|[]]]; [|discriminate]. apply F in HI.
      change (forks (Fork i :: rest)) with ([i] ++ forks rest) in C. apply NoDup_remove_2 in C. apply C. apply in_or_app. auto.
    + rewrite forked_app, map_app. cbn [forked flat_map map fst app]. rewrite <- app_assoc. exact C.
    + rewrite forked_app, map_app. cbn [forked flat_map map fst app]. rewrite <- app_assoc. exact D.
    + auto.
    + intros j HI. rewrite forked_app, map_app. apply in_or_app. apply in_app_or in HI. destruct HI as [HI|[HI|[]]]; [left; auto|discriminate].
  - (* no fork *) destruct T as [A B C D E F]. cbn [m_code m_caps] in *. assert (Hd : Forall dull [NoFork i]) by (repeat constructor). change (forks (Fork i :: rest)) with ([i] ++ forks rest) in C, D. constructor; cbn [m_code m_caps].
    + apply Sh_0. apply (shape_tail (Fork i)); cbn; auto.
    + apply settled_heads. apply (shape_tail (Fork i)); cbn; auto.
    + rewrite forked_app, (dull_forked _ Hd), app_nil_r. eapply NoDup_remove_1; eauto.
    + rewrite forked_app, (dull_forked _ Hd), app_nil_r. intros j Hj. apply D. apply in_app_or in Hj. apply in_or_app. destruct Hj; [auto|right; right; auto].
    + auto.
    + intros j HI. rewrite forked_app, (dull_forked _ Hd), app_nil_r. apply in_app_or in HI. destruct HI as [HI|[HI|[]]]; [auto|discriminate].
  - (* pid *) eapply tidy_dull; [exact T|constructor|cbn [m_caps]; apply update_length|auto|]. right. destruct T as [A B C D E F]. cbn [m_code] in *. inversion A; subst.
    + apply Forall_inv in H. destruct H.
    + split; [apply Sh_1; auto|]. cbn [heads] in B |- *. rewrite app_nil_r. destruct B as [B1 B2]. split; [|auto]. apply (in_map fst) in B1. exact B1.
  - (* running *) destruct T as [A B C D E F]. cbn [m_code m_caps] in *. assert (Hf : forked (tr ++ [Recorded i]) = forked tr) by (rewrite forked_app; cbn; rewrite app_nil_r; auto).
    assert (S : Forall settled rest) by (inversion A; subst; [apply Forall_inv in H; destruct H|auto]). constructor; cbn [m_code m_caps]; rewrite ?Hf.
    + apply Sh_0. auto.
    + apply settled_heads. auto.
    + exact C.
    + exact D.
    + rewrite update_length. auto.
    + intros j HI. apply in_app_or in HI. destruct HI as [HI|[HI|[]]]; [auto|]. assert (j = i) by congruence. subst j. apply B.
  - eapply (tidy_drop N (Nap n) rest); eauto; cbn; auto. repeat constructor.
  - eapply (tidy_drop N (Select k 0) rest); eauto; cbn; auto.
  - eapply (tidy_swap N (Select k (S n)) (Select (S k) n) rest); eauto; cbn; auto. repeat constructor.
  - destruct (existsb cap_running cs); [eapply (tidy_swap N Count (Nap Flush) rest); eauto; cbn; auto|eapply (tidy_drop N Count rest); eauto; cbn; auto].
  - eapply (tidy_drop N (Stop i sig) rest); eauto; cbn; auto. destruct (nth_error cs i) as [c|]; [destruct (cap_running c)|]; repeat constructor.
  - eapply (tidy_drop N (Poll 0) rest); eauto; cbn; auto.
  - assert (Hd : Forall dull (Polled :: map (fun d => Reaped (fst (fst d)) (snd (fst d))) dd)) by (constructor; [cbn; auto|apply dull_reaped]).
    destruct (existsb cap_running cs'); [eapply (tidy_swap N (Poll (S n)) (Poll n) rest); eauto; cbn [m_caps settled forks flat_map app]; auto; apply reap_len|eapply (tidy_drop N (Poll (S n)) rest); eauto; cbn [m_caps settled forks flat_map app]; auto; apply reap_len].
  - eapply (tidy_drop N (Note b) rest); eauto; cbn; auto. destruct b; repeat constructor.
  - eapply tidy_dull; eauto. repeat constructor.
  - pose proof (dull_interrupt _ _ _ H) as Hd. destruct (interrupt_code _ _ _ H) as [->|(x & -> & Hx & Hf)]; [eapply tidy_dull; eauto|eapply (tidy_drop N x code'); eauto].
  - pose proof (dull_interrupt _ _ _ H) as Hd. assert (Hd' : Forall dull (map (fun d => Reaped (fst (fst d)) (snd (fst d))) dd ++ ev)) by (apply Forall_app; split; [apply dull_reaped|auto]).
    destruct (interrupt_code _ _ _ H) as [->|(x & -> & Hx & Hf)]; [eapply tidy_dull; eauto; cbn [m_caps]; apply reap_len|eapply (tidy_drop N x code'); eauto; cbn [m_caps]; apply reap_len].
Qed.

Lemma forks_code : forall c n, forks (code_for c n) = seq 0 c.
Proof.
  intros c n. unfold code_for. rewrite !forks_app.
  assert (A : forall l, forks (flat_map (fun i => [Install Reaping; Fork i]) l) = l) by (induction l as [|i l IH]; [auto|]; cbn [flat_map app]; change (Install Reaping :: Fork i :: ?r) with ([Install Reaping; Fork i] ++ r); rewrite forks_app, IH; auto).
  assert (B : forall s l, forks (map (fun i => Stop i s) l) = []) by (intros s; induction l as [|i l IH]; auto).
  rewrite A, !B. destruct (0 <? c)%nat; cbn [forks flat_map app]; rewrite ?app_nil_r; auto.
Qed.

Lemma settled_code : forall c n, Forall settled (code_for c n).
Proof.
  assert (A : forall l, Forall settled (flat_map (fun i => [Install Reaping; Fork i]) l)) by (induction l; cbn [flat_map app]; [constructor|constructor; [exact I|constructor; [exact I|auto]]]).
  assert (B : forall s l, Forall settled (map (fun i => Stop i s) l)) by (intros s; induction l; cbn [map]; constructor; cbn; auto).
  intros c n. unfold code_for. repeat (apply Forall_app; split); auto; try (destruct (0 <? c)%nat); repeat (apply Forall_cons; [exact I|]); apply Forall_nil.
Qed.

Lemma tidy_begin : forall cmds n, tidy (length cmds) (begin cmds n) [].
Proof.
  intros cmds n. constructor; unfold begin; cbn [m_code m_caps forked flat_map map app]; rewrite ?forks_code.
  - apply Sh_0, settled_code.
  - apply settled_heads, settled_code.
  - apply seq_NoDup.
  - intros i Hi. apply in_seq in Hi. lia.
  - apply map_length.
  - intros i [].
Qed.

Lemma tidy_run : forall cmds n sch m tr, run sch (begin cmds n) = Some (m, tr) -> tidy (length cmds) m tr.
Proof. intros cmds n sch m tr. apply (run_reach (tidy (length cmds))); [apply tidy_begin|]. intros. eapply tidy_step; eauto. Qed.

(** ** The children *)

Definition underway (i : nat) (p : Z) (code : list instr) (cs : list capture) : Prop :=
  match code with
  | SetPid j q :: _ => j = i /\ q = p
  | SetRunning j :: _ => j = i /\ exists c, nth_error cs i = Some c /\ cap_pid c = p
  | _ => False
  end.

Definition known (i : nat) (p : Z) (cs : list capture) : Prop :=
  exists c, nth_error cs i = Some c /\ cap_pid c = p /\ cap_running c = true.

Record kin (m : machine) (tr : list happening) : Prop := MkKin {
  ki_live : forall i p, In (i, p) (m_live m) -> In (i, p) (forked tr);
  ki_dead : forall i p st, In (i, p, st) (m_dead m) -> In (i, p) (forked tr);
  ki_pids : NoDup (in_use m);
  ki_pos : forall i p, In (i, p) (forked tr) -> 0 < p;
  ki_end : forall i p, In (i, p) (forked tr) -> In (i, p) (m_live m) \/ exists st, In (Ended i p st) tr;
  ki_wait : forall i p st, In (Ended i p st) tr -> In (i, p, st) (m_dead m) \/ In (Reaped i p) tr;
  ki_waited : forall i p, In (Reaped i p) tr -> In (i, p) (forked tr);
  ki_pid : forall i c, nth_error (m_caps m) i = Some c -> cap_pid c = 0 \/ In (i, cap_pid c) (forked tr);
  ki_start : forall i p, In (i, p) (m_live m) -> underway i p (m_code m) (m_caps m) \/ known i p (m_caps m) }.

Lemma settled_underway : forall i p x l cs, settled x -> ~ underway i p (x :: l) cs.
Proof. intros i p [] l cs H; cbn in *; auto. Qed.

(** Steps that only go on. *)
Definition quietly (h : happening) : Prop := match h with Forked _ _ | Ended _ _ _ | Reaped _ _ => False | _ => True end.
Lemma quietly_forked : forall ev, Forall quietly ev -> forked ev = [].
Proof. induction ev as [|h ev IH]; intros H; [auto|]. pose proof (Forall_inv H) as A. pose proof (IH (Forall_inv_tail H)) as B. unfold forked in *. cbn [flat_map]. rewrite B. destruct h; auto. destruct A. Qed.

Lemma kin_go : forall m m' tr ev, kin m tr -> Forall quietly ev -> m_live m' = m_live m -> m_dead m' = m_dead m ->
  (forall i c, nth_error (m_caps m') i = Some c -> cap_pid c = 0 \/ In (i, cap_pid c) (forked tr)) ->
  (forall i p, In (i, p) (m_live m) -> underway i p (m_code m') (m_caps m') \/ known i p (m_caps m')) -> kin m' (tr ++ ev).
Proof.
  intros m m' tr ev [A B C D E F G H I] Hq Hl Hd Hp Hs. assert (Hn : forall h, In h (tr ++ ev) -> ~ quietly h -> In h tr) by (intros h Hh Hnq; apply in_app_or in Hh; destruct Hh as [Hh|Hh]; auto; rewrite Forall_forall in Hq; destruct (Hnq (Hq _ Hh))).
  constructor; unfold in_use; rewrite ?Hl, ?Hd, ?forked_app, ?(quietly_forked _ Hq), ?app_nil_r; auto.
  - intros i p Hi. destruct (E i p Hi) as [X|(st & X)]; [left; auto|right; exists st; apply in_or_app; auto].
  - intros i p st Hi. destruct (F i p st) as [X|X]; [apply Hn; auto|left; auto|right; apply in_or_app; auto].
Qed.

(** The children that have ended are waited for. *)
Lemma kin_reap : forall m m' tr ev1 ev2, kin m tr -> Forall quietly ev1 -> Forall quietly ev2 -> m_live m' = m_live m -> m_dead m' = [] ->
  m_caps m' = reap (map (fun d => (snd (fst d), snd d)) (m_dead m)) (m_caps m) -> (forall i p cs, underway i p (m_code m) cs -> m_code m' = m_code m) ->
  kin m' (tr ++ ev1 ++ map (fun d => Reaped (fst (fst d)) (snd (fst d))) (m_dead m) ++ ev2).
Proof.
  intros m m' tr ev1 ev2 [A B C D E F G H I] Hq1 Hq2 Hl Hd Hp Hc.
  set (evs := ev1 ++ map (fun d => Reaped (fst (fst d)) (snd (fst d))) (m_dead m) ++ ev2).
  assert (Hf : forked evs = []) by (unfold evs; rewrite !forked_app, (quietly_forked ev1), (quietly_forked ev2), forked_reaped by auto; auto).
  assert (Hn : forall h, In h evs -> ~ quietly h -> exists d, In d (m_dead m) /\ h = Reaped (fst (fst d)) (snd (fst d))).
  { intros h Hh Hnq. unfold evs in Hh. rewrite Forall_forall in Hq1, Hq2. apply in_app_or in Hh. destruct Hh as [Hh|Hh]; [destruct (Hnq (Hq1 _ Hh))|]. apply in_app_or in Hh. destruct Hh as [Hh|Hh]; [|destruct (Hnq (Hq2 _ Hh))]. apply in_map_iff in Hh. destruct Hh as (d & Hd1 & Hd2). exists d. auto. }
  constructor; unfold in_use; rewrite ?Hl, ?Hd, ?forked_app, ?Hf, ?app_nil_r; auto.
  - intros i p st [].
  - unfold in_use in C. apply NoDup_app_remove_r in C. auto.
  - intros i p Hi. destruct (E i p Hi) as [X|(st & X)]; [left; auto|right; exists st; apply in_or_app; auto].
  - intros i p st Hi. right. apply in_app_or in Hi. destruct Hi as [Hi|Hi].
    + destruct (F i p st Hi) as [X|X]; [|apply in_or_app; auto]. apply in_or_app. right. unfold evs. apply in_or_app. right. apply in_or_app. left. apply in_map_iff. exists (i, p, st). auto.
    + destruct (Hn _ Hi) as (d & _ & X); [auto|discriminate].
  - intros i p Hi. apply in_app_or in Hi. destruct Hi as [Hi|Hi]; [auto|]. destruct (Hn _ Hi) as ([[j q] st] & X1 & X2); [auto|]. cbn [fst snd] in X2. assert (i = j /\ p = q) as [-> ->] by (split; congruence). eapply B; eauto.
  - intros i c Hi. rewrite Hp in Hi. destruct (reap_nth_inv _ _ _ _ Hi) as (c0 & X1 & X2 & _). rewrite X2. auto.
  - intros i p Hi. assert (Hnd : forall c, cap_pid c = p -> ~ In (cap_pid c) (map fst (map (fun d : nat * Z * wstatus => (snd (fst d), snd d)) (m_dead m)))).
    { intros c Hcp HI. rewrite map_map in HI. cbn [fst] in HI. rewrite Hcp in HI. unfold in_use in C. assert (Hli : In p (map snd (m_live m))) by (apply in_map_iff; exists (i, p); auto).
      apply in_split in Hli. destruct Hli as (l1 & l2 & Hli). rewrite Hli, <- app_assoc in C. cbn [app] in C. apply NoDup_remove_2 in C. apply C. apply in_or_app. right. apply in_or_app. right. exact HI. }
    destruct (I i p Hi) as [X|(c & X1 & X2 & X3)].
    + left. rewrite (Hc _ _ _ X). destruct (m_code m) as [|[] ]; cbn [underway] in *; auto. destruct X as [-> (c & X1 & X2)]. split; [auto|]. rewrite Hp. destruct (reap_nth (map (fun d => (snd (fst d), snd d)) (m_dead m)) _ _ _ X1) as (c' & Y1 & Y2 & _). exists c'. split; [auto|congruence].
    + right. rewrite Hp. destruct (reap_nth (map (fun d => (snd (fst d), snd d)) (m_dead m)) _ _ _ X1) as (c' & Y1 & Y2 & Y3 & Y4 & _). rewrite (Y4 (Hnd c X2)) in Y1. exists c. auto.
Qed.

Lemma fst_functional : forall (l : list (nat * Z)) i p q, NoDup (map fst l) -> In (i, p) l -> In (i, q) l -> p = q.
Proof.
  induction l as [|[j r] l IH]; intros i p q H Hp Hq; [destruct Hp|]. cbn [map fst] in H. inversion H as [|? ? N1 N2]; subst.
  destruct Hp as [Hp|Hp], Hq as [Hq|Hq].
  - congruence.
  - assert (j = i) by congruence. subst j. destruct N1. apply in_map_iff. exists (i, q). auto.
  - assert (j = i) by congruence. subst j. destruct N1. apply in_map_iff. exists (i, p). auto.
  - eauto.
Qed.

Lemma kin_step : forall N ch m tr m' ev, tidy N m tr -> kin m tr -> step ch m = Some (m', ev) -> kin m' (tr ++ ev).
Proof.
  intros N ch m tr m' ev T K E. apply step_stepped in E.
  assert (KS : forall x rest, settled x -> m_code m = x :: rest -> forall i p, In (i, p) (m_live m) -> known i p (m_caps m)).
  { intros x rest Hx Hm i p Hi. destruct (ki_start _ _ K i p Hi) as [X|X]; [|auto]. rewrite Hm in X. destruct (settled_underway _ _ _ _ _ Hx X). }
  destruct E; cbn [m_code m_live m_caps] in KS.
  - eapply kin_go; eauto; [apply (ki_pid _ _ K)|]. intros i p Hi. right. eapply (KS (Install d)); cbn; eauto.
  - (* fork *) destruct K as [A B C D E F G J I]. cbn [m_code m_caps m_live m_dead] in *. unfold in_use in C. cbn [m_live m_dead] in C.
    assert (Hn : forall h, In h (tr ++ [Forked i p]) -> h <> Forked i p -> In h tr) by (intros h Hh Hx; apply in_app_or in Hh; destruct Hh as [Hh|[Hh|[]]]; [auto|congruence]).
    constructor; unfold in_use; cbn [m_code m_caps m_live m_dead]; rewrite ?forked_app.
    + intros j q Hj. apply in_or_app. apply in_app_or in Hj. destruct Hj as [Hj|Hj]; [left; auto|right; exact Hj].
    + intros j q st Hj. apply in_or_app. left. eauto.
    + rewrite map_app, <- app_assoc. cbn [map snd app]. eapply Permutation_NoDup; [apply Permutation_middle|]. constructor; auto.
    + intros j q Hj. apply in_app_or in Hj. destruct Hj as [Hj|[Hj|[]]]; [eauto|]. assert (p = q) by congruence. lia.
    + intros j q Hj. apply in_app_or in Hj. destruct Hj as [Hj|[Hj|[]]].
      * destruct (E j q Hj) as [X|(st & X)]; [left; apply in_or_app; auto|right; exists st; apply in_or_app; auto].
      * left. apply in_or_app. right. left. auto.
    + intros j q st Hj. apply Hn in Hj; [|discriminate]. destruct (F j q st Hj); [auto|right; apply in_or_app; auto].
    + intros j q Hj. apply Hn in Hj; [|discriminate]. apply in_or_app. auto.
    + intros j c Hj. destruct (J j c Hj); [auto|right; apply in_or_app; auto].
    + intros j q Hj. apply in_app_or in Hj. destruct Hj as [Hj|[Hj|[]]].
      * right. apply (KS (Fork i) rest); cbn; auto.
      * left. cbn [underway]. split; congruence.
  - eapply kin_go; eauto; [repeat constructor|apply (ki_pid _ _ K)|]. intros j q Hj. right. eapply (KS (Fork i)); cbn; eauto.
  - (* pid *) pose proof (ti_head _ _ _ T) as Th. cbn [m_code heads] in Th. destruct Th as [Th1 Th2]. pose proof (ti_once _ _ _ T) as To. apply NoDup_app_remove_r in To. pose proof (ti_shape _ _ _ T) as Ts. cbn [m_code] in Ts.
    assert (exists rest', rest = SetRunning i :: rest') as (rest' & ->) by (inversion Ts; subst; [apply Forall_inv in H; destruct H|eauto]).
    pose proof (ti_len _ _ _ T) as Tl. cbn [m_caps] in Tl. assert (Hi : (i < N)%nat) by (apply (ti_range _ _ _ T); apply in_or_app; left; apply in_map_iff; exists (i, p); auto).
    eapply kin_go; eauto; cbn [m_caps m_code m_live].
    + intros j c Hj. destruct (Nat.eq_dec i j) as [<-|Hne].
      * rewrite update_same in Hj. destruct (nth_error cs i) as [c0|] eqn:Ec; [|discriminate]. apply some_inj in Hj. subst c. cbn [cap_pid]. right. auto.
      * rewrite update_other in Hj by auto. apply (ki_pid _ _ K). auto.
    + intros j q Hj. destruct (Nat.eq_dec i j) as [<-|Hne].
      * left. cbn [underway]. split; [auto|]. rewrite update_same. destruct (nth_error cs i) as [c0|] eqn:Ec; [|apply nth_error_None in Ec; lia]. eexists. split; [reflexivity|]. cbn [cap_pid].
        apply (fst_functional (forked tr) i); auto. apply (ki_live _ _ K). auto.
      * right. destruct (ki_start _ _ K j q Hj) as [X|(c & X1 & X2)]; [cbn [m_code underway] in X; destruct X; congruence|]. exists c. rewrite update_other by auto. auto.
  - (* running *) eapply kin_go; eauto; cbn [m_caps m_code m_live].
    + repeat constructor.
    + intros j c Hj. destruct (Nat.eq_dec i j) as [<-|Hne].
      * rewrite update_same in Hj. destruct (nth_error cs i) as [c0|] eqn:Ec; [|discriminate]. apply some_inj in Hj. subst c. cbn [cap_pid]. apply (ki_pid _ _ K). auto.
      * rewrite update_other in Hj by auto. apply (ki_pid _ _ K). auto.
    + intros j q Hj. right. unfold known. destruct (ki_start _ _ K j q Hj) as [X|(c & X1 & X2 & X3)]; cbn [m_code m_caps] in *.
      * cbn [underway] in X. destruct X as [-> (c & X1 & X2)]. rewrite update_same, X1. eexists. split; [reflexivity|]. auto.
      * destruct (Nat.eq_dec i j) as [<-|Hne]; [rewrite update_same, X1; eexists; split; [reflexivity|]; auto|]. rewrite update_other by auto. eauto.
  - eapply kin_go; eauto; [repeat constructor|apply (ki_pid _ _ K)|]. intros j q Hj. right. eapply (KS (Nap n)); cbn; eauto.
  - eapply kin_go; eauto; [apply (ki_pid _ _ K)|]. intros j q Hj. right. eapply (KS (Select k 0)); cbn; eauto.
  - eapply kin_go; eauto; [repeat constructor|apply (ki_pid _ _ K)|]. intros j q Hj. right. eapply (KS (Select k (S n))); cbn; eauto.
  - eapply kin_go; eauto; [apply (ki_pid _ _ K)|]. intros j q Hj. right. eapply (KS Count); cbn; eauto.
  - eapply kin_go; eauto; [destruct (nth_error cs i) as [c|]; [destruct (cap_running c)|]; repeat constructor|apply (ki_pid _ _ K)|]. intros j q Hj. right. eapply (KS (Stop i sig)); cbn; eauto.
  - eapply kin_go; eauto; [apply (ki_pid _ _ K)|]. intros j q Hj. right. eapply (KS (Poll 0)); cbn; eauto.
  - pose proof (kin_reap _ (MkM (if existsb cap_running cs' then Poll n :: rest else rest) cs' lv [] pe sg) tr [Polled] [] K) as R. cbn [m_dead m_live m_caps m_code] in R. rewrite app_nil_r in R. apply R; auto; [repeat constructor|]. intros i p c [].
  - eapply kin_go; eauto; [destruct b; repeat constructor|apply (ki_pid _ _ K)|]. intros j q Hj. right. eapply (KS (Note b)); cbn; eauto.
  - (* end *) destruct K as [A B C D E F G J I]. cbn [m_code m_caps m_live m_dead] in *. unfold in_use in C. cbn [m_live m_dead] in C.
    assert (Hf : forked (tr ++ [Ended i p st]) = forked tr) by (rewrite forked_app; cbn; apply app_nil_r).
    assert (Hn : forall h, In h (tr ++ [Ended i p st]) -> h <> Ended i p st -> In h tr) by (intros h Hh Hx; apply in_app_or in Hh; destruct Hh as [Hh|[Hh|[]]]; [auto|congruence]).
    pose proof (insert_perm _ pos dd (i, p, st)) as Pd. pose proof (remove_at_perm _ _ _ _ H) as Pl.
    constructor; unfold in_use; cbn [m_code m_caps m_live m_dead]; rewrite ?Hf; auto.
    + intros j q Hj. apply A. eapply remove_at_sub; eauto.
    + intros j q s Hj. apply (Permutation_in _ Pd) in Hj. destruct Hj as [Hj|Hj]; [|eauto]. assert (j = i /\ q = p) as [-> ->] by (split; congruence). apply A. eapply nth_error_In; eauto.
    + eapply Permutation_NoDup; [|exact C]. eapply perm_trans; [apply Permutation_app_tail, (Permutation_map snd Pl)|]. cbn [map snd app]. eapply perm_trans; [apply Permutation_middle|]. apply Permutation_app_head. apply Permutation_sym. exact (Permutation_map (fun d => snd (fst d)) Pd).
    + intros j q Hj. destruct (E j q Hj) as [X|(s & X)]; [|right; exists s; apply in_or_app; auto]. destruct (remove_at_in _ _ _ _ _ H X) as [Y|Y]; [|left; auto]. assert (j = i /\ q = p) as [-> ->] by (split; congruence). right. exists st. apply in_or_app. right. left. auto.
    + intros j q s Hj. apply in_app_or in Hj. destruct Hj as [Hj|[Hj|[]]].
      * destruct (F j q s Hj) as [X|X]; [left; apply (Permutation_in _ (Permutation_sym Pd)); right; auto|right; apply in_or_app; auto].
      * left. apply (Permutation_in _ (Permutation_sym Pd)). left. congruence.
    + intros j q Hj. apply G. apply Hn; [auto|discriminate].
    + intros j q Hj. apply I. eapply remove_at_sub; eauto.
  - pose proof (interrupt_events _ _ _ H) as Hev. eapply kin_go; eauto; [eapply Forall_impl; [|exact Hev]; intros []; cbn; auto|apply (ki_pid _ _ K)|]. intros j q Hj. destruct (interrupt_code _ _ _ H) as [->|(x & -> & Hx & _)]; [apply (ki_start _ _ K); auto|right; eapply KS; eauto].
  - pose proof (interrupt_events _ _ _ H) as Hev. pose proof (kin_reap _ (MkM code' (reap (map (fun d => (snd (fst d), snd d)) dd) cs) lv [] false Reaping) tr [] ev K) as R. cbn [m_dead m_live m_caps m_code app] in R. apply R; auto; [eapply Forall_impl; [|exact Hev]; intros []; cbn; auto|].
    intros i p c Hu. destruct (interrupt_code _ _ _ H) as [->|(x & -> & Hx & _)]; [auto|]. destruct (settled_underway _ _ _ _ _ Hx Hu).
Qed.

Lemma kin_begin : forall cmds n, kin (begin cmds n) [].
Proof.
  intros cmds n. constructor; unfold begin, in_use; cbn [m_live m_dead m_caps m_code forked flat_map map app]; try (intros; contradiction).
  - constructor.
  - intros i c Hc. left. rewrite nth_error_map in Hc. destruct (nth_error cmds i); [|discriminate]. apply some_inj in Hc. subst. auto.
Qed.

Lemma both_step : forall N ch m tr m' ev, tidy N m tr /\ kin m tr -> step ch m = Some (m', ev) -> tidy N m' (tr ++ ev) /\ kin m' (tr ++ ev).
Proof. intros N ch m tr m' ev [T K] E. split; [eapply tidy_step; eauto|eapply kin_step; eauto]. Qed.

Lemma both_run : forall cmds n sch m tr, run sch (begin cmds n) = Some (m, tr) -> tidy (length cmds) m tr /\ kin m tr.
Proof. intros cmds n sch m tr. apply (run_reach (fun m tr => tidy (length cmds) m tr /\ kin m tr)); [split; [apply tidy_begin|apply kin_begin]|]. intros. eapply both_step; eauto. Qed.

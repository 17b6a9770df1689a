(** Captures that end whenever they like: invariants of every schedule. *)

From Coq Require Import Permutation.
From Verif Require Import BaseFacts.
From Verif Require Export Children SpecChildren.

(** ** Lists *)

Lemma update_length : forall A (f : A -> A) i l, length (update i f l) = length l.
Proof. intros A f i l. revert i. induction l as [|x l IH]; intros [|i]; cbn [update length]; auto. Qed.

Lemma update_same : forall A (f : A -> A) i l, nth_error (update i f l) i = match nth_error l i with Some x => Some (f x) | None => None end.
Proof. intros A f i l. revert i. induction l as [|x l IH]; intros [|i]; cbn [update nth_error]; auto. Qed.

Lemma update_other : forall A (f : A -> A) i j l, i <> j -> nth_error (update i f l) j = nth_error l j.
Proof. intros A f i j l. revert i j. induction l as [|x l IH]; intros [|i] [|j] H; cbn [update nth_error]; auto. congruence. Qed.

Lemma remove_at_in : forall A k (l : list A) x y, nth_error l k = Some x -> In y l -> y = x \/ In y (remove_at k l).
Proof.
  intros A. induction k as [|k IH]; intros [|z l] x y E Hy; cbn [nth_error] in E; try discriminate; cbn [remove_at] in *.
  - apply some_inj in E. subst. destruct Hy; auto.
  - destruct Hy as [Hy|Hy]; [right; left; auto|]. destruct (IH l x y E Hy); auto. right. right. auto.
Qed.

Lemma remove_at_sub : forall A k (l : list A) y, In y (remove_at k l) -> In y l.
Proof.
  intros A. induction k as [|k IH]; intros [|z l] y Hy; cbn [remove_at] in *; auto; [right; auto|]. destruct Hy as [Hy|Hy]; [left; auto|right; auto].
Qed.

Lemma remove_at_perm : forall A k (l : list A) x, nth_error l k = Some x -> Permutation l (x :: remove_at k l).
Proof.
  intros A. induction k as [|k IH]; intros [|z l] x E; cbn [nth_error] in E; try discriminate; cbn [remove_at].
  - apply some_inj in E. subst. apply Permutation_refl.
  - eapply perm_trans; [apply perm_skip, IH, E|]. apply perm_swap.
Qed.

Lemma insert_perm : forall A n (l : list A) x, Permutation (firstn n l ++ x :: skipn n l) (x :: l).
Proof. intros A n l x. apply Permutation_sym. eapply perm_trans; [|apply Permutation_middle]. rewrite firstn_skipn. apply Permutation_refl. Qed.

(** ** Schedules *)

Lemma run_keeps : forall (P : machine -> list happening -> Prop),
  (forall ch m tr m' ev, P m tr -> step ch m = Some (m', ev) -> P m' (tr ++ ev)) ->
  forall sch m tr m' tr', P m tr -> run sch m = Some (m', tr') -> P m' (tr ++ tr').
Proof.
  intros P HP. induction sch as [|ch sch IH]; intros m tr m' tr' H E; cbn [run] in E.
  - apply some_inj in E. apply pair_inj in E. destruct E as [E1 E2]. subst. rewrite app_nil_r. auto.
  - destruct (step ch m) as [[m1 ev1]|] eqn:E1; [|discriminate]. destruct (run sch m1) as [[m2 ev2]|] eqn:E2; [|discriminate].
    apply some_inj in E. apply pair_inj in E. destruct E as [E3 E4]. subst. rewrite app_assoc. eapply IH; [eapply HP; eauto|auto].
Qed.

Lemma run_reach : forall (P : machine -> list happening -> Prop) m0, P m0 [] ->
  (forall ch m tr m' ev, P m tr -> step ch m = Some (m', ev) -> P m' (tr ++ ev)) ->
  forall sch m tr, run sch m0 = Some (m, tr) -> P m tr.
Proof. intros P m0 H0 HP sch m tr E. change tr with ([] ++ tr). eapply run_keeps; eauto. Qed.

(** The ways to take a step. *)
Inductive stepped : machine -> machine -> list happening -> Prop :=
| S_install : forall d rest cs lv dd pe sg, stepped (MkM (Install d :: rest) cs lv dd pe sg) (MkM rest cs lv dd pe d) []
| S_fork : forall i p rest cs lv dd pe sg, 0 < p -> ~ In p (map snd lv ++ map (fun d => snd (fst d)) dd) ->
    stepped (MkM (Fork i :: rest) cs lv dd pe sg) (MkM (SetPid i p :: SetRunning i :: rest) cs (lv ++ [(i, p)]) dd pe sg) [Forked i p]
| S_nofork : forall i rest cs lv dd pe sg, stepped (MkM (Fork i :: rest) cs lv dd pe sg) (MkM rest cs lv dd pe sg) [NoFork i]
| S_pid : forall i p rest cs lv dd pe sg, stepped (MkM (SetPid i p :: rest) cs lv dd pe sg)
    (MkM rest (update i (fun c => MkCap (cap_cmd c) p (cap_running c) (cap_success c)) cs) lv dd pe sg) []
| S_running : forall i rest cs lv dd pe sg, stepped (MkM (SetRunning i :: rest) cs lv dd pe sg)
    (MkM rest (update i (fun c => MkCap (cap_cmd c) (cap_pid c) true (cap_success c)) cs) lv dd pe sg) [Recorded i]
| S_nap : forall n rest cs lv dd pe sg, stepped (MkM (Nap n :: rest) cs lv dd pe sg) (MkM rest cs lv dd pe sg) [Slept n]
| S_last : forall k rest cs lv dd pe sg, stepped (MkM (Select k 0 :: rest) cs lv dd pe sg) (MkM rest cs lv dd pe sg) []
| S_round : forall k n rest cs lv dd pe sg, stepped (MkM (Select k (S n) :: rest) cs lv dd pe sg) (MkM (Select (S k) n :: rest) cs lv dd pe sg) [Round k]
| S_count : forall rest cs lv dd pe sg, stepped (MkM (Count :: rest) cs lv dd pe sg)
    (MkM (if existsb cap_running cs then Nap Flush :: rest else rest) cs lv dd pe sg) []
| S_stop : forall i sig rest cs lv dd pe sg, stepped (MkM (Stop i sig :: rest) cs lv dd pe sg) (MkM rest cs lv dd pe sg)
    (match nth_error cs i with Some c => if cap_running c then [Sent (cap_pid c) sig] else [] | None => [] end)
| S_over : forall rest cs lv dd pe sg, stepped (MkM (Poll 0 :: rest) cs lv dd pe sg) (MkM rest cs lv dd pe sg) []
| S_poll : forall n rest cs lv dd pe sg, let cs' := reap (map (fun d => (snd (fst d), snd d)) dd) cs in
    stepped (MkM (Poll (S n) :: rest) cs lv dd pe sg) (MkM (if existsb cap_running cs' then Poll n :: rest else rest) cs' lv [] pe sg)
      (Polled :: map (fun d => Reaped (fst (fst d)) (snd (fst d))) dd)
| S_note : forall b rest cs lv dd pe sg, stepped (MkM (Note b :: rest) cs lv dd pe sg) (MkM rest cs lv dd pe sg) [if b then Stopping else Killing]
| S_end : forall k st pos i p code cs lv dd pe sg, nth_error lv k = Some (i, p) ->
    stepped (MkM code cs lv dd pe sg) (MkM code cs (remove_at k lv) (firstn pos dd ++ (i, p, st) :: skipn pos dd) (match sg with Default => pe | _ => true end) sg) [Ended i p st]
| S_deliver : forall code code' ev cs lv dd sg, (code', ev) = (code, []) \/ interrupt code = Some (code', ev) -> sg <> Reaping ->
    stepped (MkM code cs lv dd true sg) (MkM code' cs lv dd false sg) ev
| S_reap : forall code code' ev cs lv dd, (code', ev) = (code, []) \/ interrupt code = Some (code', ev) ->
    stepped (MkM code cs lv dd true Reaping) (MkM code' (reap (map (fun d => (snd (fst d), snd d)) dd) cs) lv [] false Reaping)
      (map (fun d => Reaped (fst (fst d)) (snd (fst d))) dd ++ ev).

Lemma step_stepped : forall ch m m' ev, step ch m = Some (m', ev) -> stepped m m' ev.
Proof.
  intros ch [code cs lv dd pe sg] m' ev E. destruct ch as [pid|k st pos|inside]; cbn [step m_code m_caps m_live m_dead m_pending m_sig] in E.
  - destruct code as [|x rest]; [discriminate|]. destruct x; cbn [go m_code m_caps m_live m_dead m_pending m_sig with_code with_caps] in E; unfold with_code, with_caps in E; cbn [m_code m_caps m_live m_dead m_pending m_sig] in E.
    + apply some_inj in E. apply pair_inj in E. destruct E; subst. apply S_install.
    + destruct (0 <? pid) eqn:Ep.
      * destruct (existsb (Z.eqb pid) (in_use _)) eqn:Eu; [discriminate|]. apply some_inj in E. apply pair_inj in E. destruct E; subst. apply S_fork; [lia|].
        intros HI. unfold in_use in Eu. cbn [m_live m_dead] in Eu. assert (X : existsb (Z.eqb pid) (map snd lv ++ map (fun d => snd (fst d)) dd) = true) by (apply existsb_exists; exists pid; split; [exact HI|apply Z.eqb_refl]). congruence.
      * apply some_inj in E. apply pair_inj in E. destruct E; subst. apply S_nofork.
    + apply some_inj in E. apply pair_inj in E. destruct E; subst. apply S_pid.
    + apply some_inj in E. apply pair_inj in E. destruct E; subst. apply S_running.
    + apply some_inj in E. apply pair_inj in E. destruct E; subst. apply S_nap.
    + destruct n as [|j]; apply some_inj in E; apply pair_inj in E; destruct E; subst; [apply S_last|apply S_round].
    + apply some_inj in E. apply pair_inj in E. destruct E; subst. apply S_count.
    + apply some_inj in E. apply pair_inj in E. destruct E; subst. apply S_stop.
    + destruct n as [|j]; cbn [signal_child m_dead m_caps] in E; apply some_inj in E; apply pair_inj in E; destruct E; subst; [apply S_over|apply S_poll].
    + apply some_inj in E. apply pair_inj in E. destruct E; subst. apply S_note.
  - destruct (nth_error lv k) as [[i p]|] eqn:Ek; [|discriminate]. apply some_inj in E. apply pair_inj in E. destruct E; subst. apply S_end. auto.
  - destruct pe; [|discriminate]. destruct (if inside then interrupt code else Some (code, [])) as [[code' ev1]|] eqn:Ei; [|discriminate].
    assert (Hi : (code', ev1) = (code, []) \/ interrupt code = Some (code', ev1)) by (destruct inside; [right; exact Ei|left; apply some_inj in Ei; auto]).
    destruct sg; cbn [signal_child m_dead m_caps] in E; apply some_inj in E; apply pair_inj in E; destruct E; subst.
    + apply S_deliver; [auto|discriminate].
    + apply S_reap; auto.
    + apply S_deliver; [auto|discriminate].
Qed.

(** ** Every schedule ends *)

Definition weight (x : instr) : nat :=
  match x with Fork _ => 5 | Count => 2 | Select _ n => S n | Poll n => S n | _ => 1 end.
Definition weights (l : list instr) : nat := list_sum (map weight l).
Definition left_over (m : machine) : nat := weights (m_code m) + 2 * length (m_live m) + (if m_pending m then 1 else 0).

Lemma remove_at_length : forall A k (l : list A) x, nth_error l k = Some x -> length l = S (length (remove_at k l)).
Proof. intros A k l x E. rewrite (Permutation_length (remove_at_perm A k l x E)). auto. Qed.

Lemma weights_cons : forall x l, weights (x :: l) = (weight x + weights l)%nat.
Proof. intros. reflexivity. Qed.
Lemma weights_app : forall l1 l2, weights (l1 ++ l2) = (weights l1 + weights l2)%nat.
Proof. intros. unfold weights. rewrite map_app, list_sum_app. auto. Qed.

Lemma interrupt_weights : forall code code' ev, (code', ev) = (code, []) \/ interrupt code = Some (code', ev) -> (weights code' <= weights code)%nat.
Proof.
  intros code code' ev [E|E]; [apply pair_inj in E; destruct E; subst; lia|]. destruct code as [|x rest]; cbn [interrupt] in E; [discriminate|].
  destruct x; try discriminate; apply some_inj in E; apply pair_inj in E; destruct E; subst; rewrite weights_cons; lia.
Qed.

Lemma step_less : forall ch m m' ev, step ch m = Some (m', ev) -> (left_over m' < left_over m)%nat.
Proof.
  intros ch m m' ev E. apply step_stepped in E. unfold left_over. destruct E; cbn [m_code m_live m_pending]; rewrite ?app_length, ?weights_cons; cbn [weight length]; try lia.
  - destruct (existsb cap_running cs); rewrite ?weights_cons; cbn [weight]; lia.
  - destruct (existsb cap_running cs'); rewrite ?weights_cons; cbn [weight]; lia.
  - pose proof (remove_at_length _ _ _ _ H). destruct sg, pe; lia.
  - pose proof (interrupt_weights _ _ _ H). lia.
  - pose proof (interrupt_weights _ _ _ H). lia.
Qed.

Lemma run_less : forall sch m m' tr, run sch m = Some (m', tr) -> (length sch + left_over m' <= left_over m)%nat.
Proof.
  induction sch as [|ch sch IH]; intros m m' tr E; cbn [run] in E.
  - apply some_inj in E. apply pair_inj in E. destruct E; subst. cbn [length]. lia.
  - destruct (step ch m) as [[m1 ev1]|] eqn:E1; [|discriminate]. destruct (run sch m1) as [[m2 ev2]|] eqn:E2; [|discriminate].
    apply some_inj in E. apply pair_inj in E. destruct E; subst. pose proof (step_less _ _ _ _ E1). pose proof (IH _ _ _ E2). cbn [length]. lia.
Qed.

Lemma weights_starts : forall l, weights (flat_map (fun i => [Install Reaping; Fork i]) l) = (6 * length l)%nat.
Proof. induction l as [|i l IH]; [auto|]. cbn [flat_map app]. rewrite !weights_cons, IH. cbn [weight length]. lia. Qed.
Lemma weights_stops : forall s l, weights (map (fun i => Stop i s) l) = length l.
Proof. intros s. induction l as [|i l IH]; [auto|]. cbn [map]. rewrite weights_cons, IH. auto. Qed.

Lemma code_weight : forall c n, Z.of_nat (weights (code_for c n)) <= Z.of_nat n + 8 * Z.of_nat c + 20011.
Proof.
  intros c n. unfold code_for. rewrite !weights_app, weights_starts, !weights_stops, seq_length.
  assert (Ht : Z.of_nat turns = 10000) by (unfold turns; rewrite Z2Nat.id by lia; auto).
  assert (Ha : (weights (if (0 <? c)%nat then [Nap Ready] else []) <= 1)%nat) by (destruct (0 <? c)%nat; cbn; lia).
  assert (Hb : (weights (if (0 <? c)%nat then [Nap RestSeconds; Nap RestMicroseconds] else []) <= 2)%nat) by (destruct (0 <? c)%nat; cbn; lia).
  rewrite !weights_cons. cbn [weight]. change (weights []) with 0%nat. lia.
Qed.

Lemma always_ends : forall cmds n sch m tr, run sch (begin cmds n) = Some (m, tr) -> Z.of_nat (length sch) <= Z.of_nat n + 8 * Z.of_nat (length cmds) + 20011.
Proof.
  intros cmds n sch m tr E. pose proof (run_less _ _ _ _ E) as H. unfold left_over at 2 in H. unfold begin in H. cbn [m_code m_live m_pending length] in H.
  pose proof (code_weight (length cmds) n). lia.
Qed.

Lemma never_stuck : forall m, m_code m <> [] -> exists m' ev, step (Go (-1)) m = Some (m', ev).
Proof.
  intros [code cs lv dd pe sg] H. cbn [m_code] in H. destruct code as [|x rest]; [congruence|]. cbn [step m_code].
  destruct x; cbn [go]; try (do 2 eexists; reflexivity).
  - destruct n; do 2 eexists; reflexivity.
  - destruct n; do 2 eexists; reflexivity.
Qed.

(** ** What waiting for children does to the captures *)

Lemma child_exit_nth : forall p st cs j c, nth_error cs j = Some c ->
  exists c', nth_error (child_exit p st cs) j = Some c' /\ cap_pid c' = cap_pid c /\ (cap_running c' = true -> cap_running c = true) /\
  (cap_pid c <> p -> c' = c) /\ ((forall k d, nth_error cs k = Some d -> cap_pid d = p -> k = j) -> cap_pid c = p -> cap_running c' = false).
Proof.
  intros p st. induction cs as [|d cs IH]; intros [|j] c E; cbn [nth_error] in E; try discriminate; cbn [child_exit].
  - apply some_inj in E. subst d. destruct (cap_pid c =? p) eqn:Ep.
    + destruct st; cbn [nth_error]; eexists; (split; [reflexivity|]); cbn [cap_pid cap_running]; (split; [auto|]); (split; [intros; discriminate|]); (split; [intros; lia|auto]).
    + cbn [nth_error]. eexists. split; [reflexivity|]. repeat (split; auto). intros. lia.
  - destruct (cap_pid d =? p) eqn:Ep.
    + exists c. destruct st; cbn [nth_error]; (split; [auto|]); repeat (split; auto); intros Hu; exfalso; specialize (Hu 0%nat d eq_refl); assert (cap_pid d = p) by lia; specialize (Hu H); discriminate.
    + cbn [nth_error]. destruct (IH j c E) as (c' & A & B & C & D & F). exists c'. repeat (split; auto). intros Hu Hp. apply F; auto. intros k e He Hq. specialize (Hu (S k) e He Hq). lia.
Qed.

Lemma child_exit_len : forall p st cs, length (child_exit p st cs) = length cs.
Proof. intros p st. induction cs as [|c cs IH]; cbn [child_exit]; auto. destruct (cap_pid c =? p); [destruct st; auto|]. cbn [length]. auto. Qed.

Lemma reap_len : forall evs cs, length (reap evs cs) = length cs.
Proof. unfold reap. induction evs as [|e evs IH]; intros cs; cbn [fold_left]; auto. rewrite IH. apply child_exit_len. Qed.

Lemma nth_some_len : forall A (l l' : list A) j c, length l = length l' -> nth_error l j = Some c -> exists c', nth_error l' j = Some c'.
Proof. intros A l l' j c H E. destruct (nth_error l' j) as [c'|] eqn:E'; eauto. apply nth_error_None in E'. assert (j < length l)%nat by (apply nth_error_Some; congruence). lia. Qed.

Lemma reap_nth : forall evs cs j c, nth_error cs j = Some c ->
  exists c', nth_error (reap evs cs) j = Some c' /\ cap_pid c' = cap_pid c /\ (cap_running c' = true -> cap_running c = true) /\
  (~ In (cap_pid c) (map fst evs) -> c' = c) /\ ((forall k d, nth_error cs k = Some d -> cap_pid d = cap_pid c -> k = j) -> In (cap_pid c) (map fst evs) -> cap_running c' = false).
Proof.
  unfold reap. induction evs as [|[p st] evs IH]; intros cs j c E; cbn [fold_left map fst snd].
  - exists c. repeat (split; auto). intros _ [].
  - destruct (child_exit_nth p st cs j c E) as (c1 & A1 & B1 & C1 & D1 & F1). destruct (IH (child_exit p st cs) j c1 A1) as (c2 & A2 & B2 & C2 & D2 & F2).
    exists c2. split; [auto|]. split; [congruence|]. split; [auto|]. split.
    + intros HN. assert (c1 = c) by (apply D1; intros X; apply HN; left; auto). subst c1. apply D2. intros X. apply HN. right. auto.
    + intros Hu [Hp|Hp].
      * assert (cap_running c1 = false) by (apply F1; [intros k d Hk Hd; apply (Hu k d Hk); congruence|auto]). destruct (cap_running c2) eqn:E2; auto. rewrite C2 in H; auto.
      * apply F2; [|congruence]. intros k d Hk Hd. destruct (nth_some_len _ (child_exit p st cs) cs k d (child_exit_len p st cs) Hk) as (d0 & Hd0).
        destruct (child_exit_nth p st cs k d0 Hd0) as (d1 & X1 & X2 & _). rewrite Hk in X1. apply some_inj in X1. subst d1. apply (Hu k d0 Hd0). congruence.
Qed.

Lemma reap_nth_inv : forall evs cs j c', nth_error (reap evs cs) j = Some c' -> exists c, nth_error cs j = Some c /\ cap_pid c' = cap_pid c /\ (cap_running c' = true -> cap_running c = true) /\
  (~ In (cap_pid c) (map fst evs) -> c' = c) /\ ((forall k d, nth_error cs k = Some d -> cap_pid d = cap_pid c -> k = j) -> In (cap_pid c) (map fst evs) -> cap_running c' = false).
Proof.
  intros evs cs j c' E. destruct (nth_some_len _ (reap evs cs) cs j c' (reap_len evs cs) E) as (c & Hc). exists c. split; [auto|].
  destruct (reap_nth evs cs j c Hc) as (c1 & A & B). rewrite E in A. apply some_inj in A. subst c1. exact B.
Qed.

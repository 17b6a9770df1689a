(** Proofs about sockets (C91, C92): the phases of their lives, and their queues. *)

From Coq Require Import Permutation.
From Verif Require Import BaseFacts SpecSockets.

(** *** Runs *)
Lemma run_app : forall s1 s2 m m1 t1 m2 t2, run s1 m = Some (m1, t1) -> run s2 m1 = Some (m2, t2) -> run (s1 ++ s2) m = Some (m2, t1 ++ t2).
Proof.
  induction s1 as [|ch s1 IH]; intros s2 m m1 t1 m2 t2 E1 E2; cbn [run app] in *.
  - apply some_inj in E1. apply pair_inj in E1. destruct E1; subst. auto.
  - destruct (step ch m) as [[ma ea]|]; [|discriminate]. destruct (run s1 ma) as [[mb eb]|] eqn:E; [|discriminate]. apply some_inj in E1. apply pair_inj in E1. destruct E1; subst.
    rewrite (IH s2 ma m1 eb m2 t2 E E2), app_assoc. auto.
Qed.

Lemma run_inv : forall (P : list happening -> machine -> Prop) m0, P [] m0 ->
  (forall tr m ch m1 ev, P tr m -> step ch m = Some (m1, ev) -> P (tr ++ ev) m1) -> forall sch m tr, run sch m0 = Some (m, tr) -> P tr m.
Proof.
  intros P m0 H0 HS sch. assert (G : forall tr0 m1, P tr0 m1 -> forall m tr, run sch m1 = Some (m, tr) -> P (tr0 ++ tr) m).
  { induction sch as [|ch sch IH]; intros tr0 m1 H m tr E; cbn [run] in E.
    - apply some_inj, pair_inj in E. destruct E as [<- <-]. rewrite app_nil_r. auto.
    - destruct (step ch m1) as [[ma ea]|] eqn:E1; [|discriminate]. destruct (run sch ma) as [[mb eb]|] eqn:E2; [|discriminate]. apply some_inj, pair_inj in E. destruct E as [<- <-]. rewrite app_assoc. eapply IH; [|exact E2]. eauto. }
  intros m tr E. apply (G [] m0 H0 m tr E).
Qed.

(** *** Traces *)
Definition heard (p : phase) (h : happening) : list arrival :=
  match h with
  | Arrived ix m =>
      match p with
      | Raw _ => [(ix, m)]
      | Attached _ b | InUse _ b => if (b =? 0) || (b =? ix) then [(ix, m)] else []
      | _ => []
      end
  | _ => []
  end.
Fixpoint queued (i : nat) (p : phase) (tr : list happening) : list arrival :=
  match tr with
  | [] => []
  | h :: r => heard p h ++ match next i p h with Some q => queued i q r | None => [] end
  end.

Lemma life_app : forall i a b p, life i p (a ++ b) = match life i p a with Some q => life i q b | None => None end.
Proof. intros i a b. induction a as [|h a IH]; intros p; cbn [app life]; [auto|]. destruct (next i p h); auto. Qed.
Lemma queued_app : forall i a b p q, life i p a = Some q -> queued i p (a ++ b) = queued i p a ++ queued i q b.
Proof.
  intros i a b. induction a as [|h a IH]; intros p q E; cbn [app life queued] in *; [apply some_inj in E; subst; auto|].
  destruct (next i p h) as [p'|]; [|discriminate]. rewrite (IH _ _ E), app_assoc. auto.
Qed.
Lemma dropped_app : forall i a b, dropped i (a ++ b) = dropped i a ++ dropped i b.
Proof. intros. apply flat_map_app. Qed.
Lemma taken_app : forall i a b, taken i (a ++ b) = taken i a ++ taken i b.
Proof. intros. apply flat_map_app. Qed.
Lemma arrivals_app : forall a b, arrivals (a ++ b) = arrivals a ++ arrivals b.
Proof. intros. apply flat_map_app. Qed.
Lemma arrivals_at_app : forall ix a b, arrivals_at ix (a ++ b) = arrivals_at ix a ++ arrivals_at ix b.
Proof. intros. unfold arrivals_at. rewrite arrivals_app, filter_app. auto. Qed.

Lemma back_fresh : forall i tr p, life i p tr = Some Fresh -> p = Fresh.
Proof.
  intros i tr. induction tr as [|h tr IH]; intros p H; cbn [life] in H; [congruence|]. destruct (next i p h) as [p'|] eqn:E; [|discriminate]. apply IH in H. subst p'.
  unfold next in E. destruct (number_of h) as [j|]; [|congruence]. destruct (Nat.eqb j i); [|congruence]. destruct p, h; cbn [allowed] in E; try discriminate E; auto; destruct (_ =? _) in E; discriminate E.
Qed.
Lemma fresh_nothing : forall i tr, life i Fresh tr = Some Fresh -> queued i Fresh tr = [] /\ dropped i tr = [] /\ taken i tr = [].
Proof.
  intros i tr. induction tr as [|h tr IH]; intros H; [auto|]. cbn [life] in H. destruct (next i Fresh h) as [p|] eqn:E; [|discriminate]. pose proof (back_fresh _ _ _ H) as ->.
  destruct (IH H) as [H1 [H2 H3]]. cbn [queued]. rewrite E, H1. unfold dropped, taken in *. cbn [flat_map]. rewrite H2, H3.
  unfold next in E. destruct h as [ix m|j fd|j|j b ix|j ix|j|j|j a|j|j fd| |j a|j fd]; cbn [number_of heard] in *; auto; destruct (Nat.eqb j i); cbn [allowed] in E; try discriminate E; auto.
Qed.

(** *** What the kernel has, and what the trace says *)
Definition fits (p : phase) (k : sock) : Prop :=
  match p with
  | Raw fd => fd = k_fd k /\ k_if k = 0
  | Attached fd ix | InUse fd ix => fd = k_fd k /\ k_if k = ix
  | Fresh | Gone => False
  end.

Definition known (tr : list happening) (i : nat) (o : option sock) : Prop :=
  exists p, life i Fresh tr = Some p /\
  match o with
  | Some k => fits p k /\ queued i Fresh tr = dropped i tr ++ taken i tr ++ k_queue k
  | None => (p = Fresh \/ p = Gone) /\ exists rest, queued i Fresh tr = dropped i tr ++ taken i tr ++ rest
  end.

(** Events that do not concern [i] *)
Definition aside (i : nat) (ev : list happening) : Prop :=
  forall h, In h ev -> match h with Arrived _ _ => False | _ => number_of h <> Some i end.

Lemma aside_life : forall i ev p, aside i ev -> life i p ev = Some p /\ queued i p ev = [] /\ dropped i ev = [] /\ taken i ev = [].
Proof.
  intros i ev p. induction ev as [|h ev IH]; intros H; [auto|]. destruct IH as [H1 [H2 [H3 H4]]]; [intros x Hx; apply H; right; auto|]. specialize (H h (or_introl eq_refl)).
  assert (N : next i p h = Some p) by (unfold next; destruct h as [ix m|j fd|j|j b ix|j ix|j|j|j a|j|j fd| |j a|j fd]; cbn [number_of] in *; auto; destruct (Nat.eqb_spec j i); congruence).
  cbn [life queued]. rewrite N, H1, H2. unfold dropped, taken in *. cbn [flat_map]. rewrite H3, H4, !app_nil_r.
  split; [auto|]. destruct h as [ix m|j fd|j|j b ix|j ix|j|j|j a|j|j fd| |j a|j fd]; cbn [number_of heard] in *; try contradiction; auto; destruct (Nat.eqb_spec j i); subst; try congruence; auto.
Qed.

Lemma known_aside : forall tr ev i o, known tr i o -> aside i ev -> known (tr ++ ev) i o.
Proof.
  intros tr ev i o [p [H1 H2]] HA. destruct (aside_life i ev p HA) as [A1 [A2 [A3 A4]]]. exists p. rewrite life_app, H1. split; [auto|].
  rewrite (queued_app _ _ _ _ _ H1), dropped_app, taken_app, A2, A3, A4, !app_nil_r. exact H2.
Qed.

(** An event at [i] that leaves the queue *)
Lemma known_event : forall tr h i k k' p p', life i Fresh tr = Some p -> queued i Fresh tr = dropped i tr ++ taken i tr ++ k_queue k -> number_of h = Some i -> allowed p h = Some p' -> fits p' k' -> k_queue k' = k_queue k ->
  match h with Dropped _ _ | Taken _ _ => False | _ => True end -> known (tr ++ [h]) i (Some k').
Proof.
  intros tr h i k k' p p' H1 H2 H3 H4 H5 H6 H7. assert (N : next i p h = Some p') by (unfold next; rewrite H3, Nat.eqb_refl; auto). exists p'. rewrite life_app, H1. cbn [life]. rewrite N. split; [auto|]. split; [auto|].
  rewrite (queued_app _ _ _ _ _ H1), dropped_app, taken_app. cbn [queued]. rewrite N, H6. destruct h; cbn [number_of heard dropped taken flat_map app] in *; try discriminate H3; try destruct H7; rewrite !app_nil_r; exact H2.
Qed.

Definition view (m : machine) (i : nat) : option sock := find (fun k => Nat.eqb (k_no k) i) (m_socks m).

Lemma find_map_same : forall (f : sock -> sock) i l, (forall k, k_no (f k) = k_no k) -> find (fun k => Nat.eqb (k_no k) i) (map f l) = match find (fun k => Nat.eqb (k_no k) i) l with Some k => Some (f k) | None => None end.
Proof. intros f i l H. induction l as [|k l IH]; [auto|]. cbn [map find]. rewrite H. destruct (Nat.eqb (k_no k) i); auto. Qed.

(** *** Numbers and file descriptors *)
Definition ids (m : machine) : list (nat * Z) := map (fun k => (k_no k, k_fd k)) (m_socks m).
Definition own (l : list Z) : list (nat * Z) := combine (seq 0 (length l)) l.

Lemma own_snoc : forall l x, own (l ++ [x]) = own l ++ [(length l, x)].
Proof.
  intros l x. unfold own. rewrite app_length. cbn [length]. rewrite Nat.add_1_r, seq_S. cbn [plus]. generalize 0%nat. intros z.
  assert (G : forall (a : list nat) (b : list Z) c d, length a = length b -> combine (a ++ [c]) (b ++ [d]) = combine a b ++ [(c, d)]).
  { induction a as [|u a IH]; intros [|v b] c d E; cbn [length] in E; try discriminate E; [auto|]. cbn [app combine]. rewrite IH by lia. auto. }
  apply G. rewrite seq_length. auto.
Qed.

Lemma own_nth : forall l i x, nth_error l i = Some x -> nth_error (own l) i = Some (i, x).
Proof.
  intros l i x. unfold own. assert (G : forall z, nth_error l i = Some x -> nth_error (combine (seq z (length l)) l) i = Some ((z + i)%nat, x)).
  { revert i. induction l as [|y l IH]; intros [|i] z H; try discriminate H; cbn [length seq combine nth_error] in *; [rewrite Nat.add_0_r; congruence|]. rewrite (IH i (S z) H). do 2 f_equal. lia. }
  apply (G 0%nat).
Qed.

Lemma own_in : forall l i x, In (i, x) (own l) -> nth_error l i = Some x.
Proof.
  intros l i x H. apply In_nth_error in H. destruct H as [n H]. assert (L : (n < length l)%nat) by (assert (n < length (own l))%nat by (apply nth_error_Some; congruence); unfold own in *; rewrite combine_length, seq_length in *; lia).
  destruct (nth_error l n) as [y|] eqn:E; [|apply nth_error_None in E; lia]. rewrite (own_nth _ _ _ E) in H. congruence.
Qed.

Lemma view_in : forall m i k, view m i = Some k -> In (i, k_fd k) (ids m) /\ k_no k = i.
Proof.
  intros m i k H. apply find_some in H. destruct H as [H1 H2]. apply Nat.eqb_eq in H2. split; [|auto]. apply in_map_iff. exists k. subst i. auto.
Qed.
Lemma view_none : forall m i, view m i = None -> forall fd, ~ In (i, fd) (ids m).
Proof.
  intros m i H fd X. apply in_map_iff in X. destruct X as [k [E X]]. apply pair_inj in E. destruct E as [E _]. pose proof (find_none _ _ H k X) as Y. cbn in Y. apply Nat.eqb_neq in Y. auto.
Qed.

Lemma view_sock : forall m i fd, NoDup (map fst (ids m)) -> NoDup (map snd (ids m)) -> In (i, fd) (ids m) -> exists k, view m i = Some k /\ sock_of fd m = Some k /\ k_fd k = fd /\ k_no k = i.
Proof.
  unfold ids, view, sock_of. intros m i fd. rewrite !map_map. cbn [fst snd]. induction (m_socks m) as [|k l IH]; intros N1 N2 H; [destruct H|]. cbn [map] in *. apply NoDup_cons_iff in N1. apply NoDup_cons_iff in N2. destruct N1 as [A1 N1], N2 as [A2 N2]. cbn [find].
  destruct H as [H|H].
  - apply pair_inj in H. destruct H as [<- <-]. rewrite Nat.eqb_refl, Z.eqb_refl. eauto.
  - destruct (IH N1 N2 H) as [k' [H1 [H2 [H3 H4]]]]. apply in_map_iff in H. destruct H as [k'' [E H]]. apply pair_inj in E. destruct E as [E1 E2].
    destruct (Nat.eqb_spec (k_no k) i); [exfalso; apply A1; apply in_map_iff; exists k''; split; [congruence|auto]|]. destruct (Z.eqb_spec (k_fd k) fd); [exfalso; apply A2; apply in_map_iff; exists k''; split; [congruence|auto]|]. eauto.
Qed.

Lemma ids_on_sock : forall fd f m c, (forall k, k_no (f k) = k_no k) -> (forall k, k_fd (f k) = k_fd k) -> ids (with_socks m c (on_sock fd f m)) = ids m.
Proof.
  intros fd f m c H1 H2. unfold ids, with_socks, on_sock. cbn [m_socks]. rewrite map_map. apply map_ext. intros k. destruct (_ =? _); [rewrite H1, H2|]; auto.
Qed.

Lemma view_on_sock : forall m i fd f socks, NoDup (map fst (ids m)) -> NoDup (map snd (ids m)) -> In (i, fd) (ids m) -> (forall k, k_no (f k) = k_no k) -> socks = on_sock fd f m ->
  forall j, find (fun k => Nat.eqb (k_no k) j) socks = if Nat.eqb j i then match view m i with Some k => Some (f k) | None => None end else view m j.
Proof.
  intros m i fd f socks N1 N2 H Hf -> j. unfold on_sock. rewrite find_map_same by (intros k; destruct (_ =? _); auto). fold (view m j). destruct (view_sock _ _ _ N1 N2 H) as [k [V1 [V2 [V3 V4]]]].
  destruct (Nat.eqb_spec j i) as [->|D].
  - rewrite V1, V3, Z.eqb_refl. auto.
  - destruct (view m j) as [k'|] eqn:E; [|auto]. destruct (Z.eqb_spec (k_fd k') fd) as [E'|E']; [|auto]. exfalso. apply D. destruct (view_in _ _ _ E) as [V5 V6]. rewrite E' in V5.
    apply (In_nth_error) in V5. destruct V5 as [n1 V5]. apply In_nth_error in H. destruct H as [n2 H]. assert (n1 = n2).
    { apply (proj1 (NoDup_nth_error _) N2); [apply nth_error_Some; rewrite nth_error_map, V5; discriminate|]. rewrite !nth_error_map, V5, H. auto. }
    subst. congruence.
Qed.

Lemma view_without : forall m i fd, NoDup (map fst (ids m)) -> NoDup (map snd (ids m)) -> In (i, fd) (ids m) ->
  forall j, find (fun k => Nat.eqb (k_no k) j) (without fd m) = if Nat.eqb j i then None else view m j.
Proof.
  unfold ids, view, without. intros m i fd. rewrite !map_map. cbn [fst snd]. induction (m_socks m) as [|k l IH]; intros N1 N2 H j; [destruct H|]. cbn [map] in *. apply NoDup_cons_iff in N1. apply NoDup_cons_iff in N2. destruct N1 as [A1 N1], N2 as [A2 N2]. cbn [filter find].
  destruct H as [H|H].
  - apply pair_inj in H. destruct H as [<- <-]. rewrite Z.eqb_refl. cbn [negb]. assert (F : filter (fun k0 => negb (k_fd k0 =? k_fd k)) l = l).
    { clear - A2. induction l as [|x l IH]; [auto|]. cbn [filter map] in *. destruct (Z.eqb_spec (k_fd x) (k_fd k)) as [E|E]; [exfalso; apply A2; left; auto|]. cbn [negb]. rewrite IH; auto. intros X. apply A2. right. auto. }
    rewrite F. destruct (Nat.eqb_spec j (k_no k)) as [->|D]; [|destruct (Nat.eqb_spec (k_no k) j); [congruence|auto]]. destruct (find _ l) eqn:E; [|auto]. apply find_some in E. destruct E as [E1 E2]. apply Nat.eqb_eq in E2. exfalso. apply A1. rewrite <- E2. apply in_map. auto.
  - pose proof H as H'. apply in_map_iff in H'. destruct H' as [k'' [E H']]. apply pair_inj in E. destruct E as [E1 E2]. destruct (Z.eqb_spec (k_fd k) fd); [exfalso; apply A2; apply in_map_iff; exists k''; split; [congruence|auto]|]. cbn [negb find].
    destruct (Nat.eqb_spec (k_no k) j) as [E|E]; [|apply IH; auto]. destruct (Nat.eqb_spec j i) as [->|]; [|auto]. exfalso. apply A1. apply in_map_iff. exists k''. split; [congruence|auto].
Qed.

Lemma ids_without : forall m fd, map (fun k => (k_no k, k_fd k)) (without fd m) = filter (fun p => negb (snd p =? fd)) (ids m).
Proof. intros m fd. unfold ids, without. induction (m_socks m) as [|k l IH]; [auto|]. cbn [filter map snd]. destruct (k_fd k =? fd); cbn [negb map]; [|f_equal]; auto. Qed.

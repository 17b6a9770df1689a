(** Proofs about sockets: what the trace says is what the kernel has (C91, C92). *)

From Coq Require Import Permutation.
From Verif Require Import BaseFacts SpecSockets PSockets PSockets2.

Definition expects (tr : list happening) (x : instr) : Prop :=
  match x with
  | Socket i => life i Fresh tr = Some Fresh
  | Lookup i fd | Lookup2 i fd _ | Bind i fd _ _ => life i Fresh tr = Some (Raw fd)
  | Promisc i fd _ | Auxdata i fd => (exists ix, life i Fresh tr = Some (Attached fd ix)) /\ dropped i tr = []
  | Drain i fd d => (exists ix, life i Fresh tr = Some (Attached fd ix)) /\ (length (dropped i tr) + d = drain_turns)%nat
  | _ => True
  end.

Record agrees (n : nat) (tr : list happening) (m : machine) : Prop := {
  ag_course : course n m;
  ag_known : forall i, known tr i (view m i);
  ag_code : forall x, In x (m_code m) -> expects tr x;
  ag_use : forall i fd, nth_error (m_fds m) i = Some fd -> In (i, fd) (ids m) -> exists ix, life i Fresh tr = Some (InUse fd ix) }.

Lemma aside_one : forall h i j, number_of h = Some i -> i <> j -> aside j [h].
Proof. intros h i j H D x [<-|[]]. destruct h; cbn [number_of] in *; congruence. Qed.
Lemma aside_turn : forall j, aside j [Turn].
Proof. intros j x [<-|[]]. cbn. discriminate. Qed.
Lemma aside_nil : forall j, aside j [].
Proof. intros j x []. Qed.

Lemma aside_expects : forall tr ev x, match x with Socket i | Lookup i _ | Lookup2 i _ _ | Bind i _ _ _ | Promisc i _ _ | Auxdata i _ | Drain i _ _ => aside i ev | _ => True end -> expects tr x -> expects (tr ++ ev) x.
Proof.
  intros tr ev x HA H. destruct x; cbn [expects] in *; auto; rewrite ?life_app; try (rewrite H; apply (aside_life _ _ _ HA)); destruct H as [[ix H] H']; (split; [exists ix; rewrite H; apply (aside_life _ _ _ HA)|]);
    rewrite dropped_app, (proj1 (proj2 (proj2 (aside_life _ _ Fresh HA)))), app_nil_r; auto.
Qed.

Lemma in_more : forall n i x, In x (more i n) -> (exists j, x = Socket j /\ (i <= j < n)%nat) \/ x = Loop \/ exists j, x = Close j.
Proof.
  intros n i x H. apply in_app_or in H. destruct H as [H|[H|H]].
  - apply in_map_iff in H. destruct H as [j [<- H]]. apply in_seq in H. left. exists j. split; [auto|lia].
  - auto.
  - apply in_map_iff in H. destruct H as [j [<- H]]. eauto.
Qed.

(** Code that only opens further sockets *)
Lemma expects_more : forall tr ev n i, (forall x, In x (more (S i) n) -> expects tr x) -> (forall j, j <> i -> aside j ev) -> forall x, In x (more (S i) n) -> expects (tr ++ ev) x.
Proof.
  intros tr ev n i H HA x Hx. apply aside_expects; [|auto]. destruct (in_more _ _ _ Hx) as [[j [-> L]]|[-> |[j ->]]]; auto. apply HA. lia.
Qed.
Lemma expects_arrived : forall tr ix m x, expects tr x -> expects (tr ++ [Arrived ix m]) x.
Proof.
  intros tr ix m x H. destruct x; cbn [expects] in *; auto; rewrite ?life_app, ?dropped_app; try (rewrite H; reflexivity); destruct H as [[ix' H] H']; (split; [exists ix'; rewrite H; reflexivity|]); rewrite app_nil_r; auto.
Qed.

Lemma known_enqueue : forall tr ix x i o, known tr i o -> known (tr ++ [Arrived ix x]) i (match o with Some k => Some (enqueue (ix, x) k) | None => None end).
Proof.
  intros tr ix x i o [p [H1 H2]]. exists p. split; [rewrite life_app, H1; reflexivity|]. rewrite (queued_app _ _ _ _ _ H1), dropped_app, taken_app. cbn [dropped taken flat_map queued]. rewrite !app_nil_r. unfold next. cbn [number_of].
  destruct o as [k|].
  - destruct H2 as [F Q]. split.
    + unfold enqueue. destruct (_ || _); [|exact F]. destruct p; cbn [fits set_queue k_fd k_if] in *; auto.
    + rewrite Q. unfold enqueue. cbn [fst]. destruct p; cbn [fits heard] in *; try contradiction; destruct F as [_ F]; rewrite F; [cbn [Z.eqb orb]|..]; [|destruct ((ix0 =? 0) || (ix0 =? ix)) eqn:E..]; cbn [set_queue k_queue]; rewrite ?app_nil_r, ?app_assoc; auto.
  - destruct H2 as [F [rest Q]]. split; [auto|]. exists rest. destruct F as [-> | ->]; cbn [heard]; rewrite app_nil_r; auto.
Qed.

(** A frame leaves the queue. *)
Lemma known_pop : forall tr h i k k' p a q, life i Fresh tr = Some p -> queued i Fresh tr = dropped i tr ++ taken i tr ++ k_queue k -> k_queue k = a :: q -> k_queue k' = q -> fits p k' ->
  (h = Dropped i a /\ (exists fd ix, p = Attached fd ix) /\ taken i tr = [] \/ h = Taken i a /\ exists fd ix, p = InUse fd ix) -> known (tr ++ [h]) i (Some k').
Proof.
  intros tr h i k k' p a q H1 H2 H3 H4 H5 H6. assert (N : next i p h = Some p) by (unfold next; destruct H6 as [[-> [[fd [ix ->]] _]]|[-> [fd [ix ->]]]]; cbn [number_of allowed]; rewrite Nat.eqb_refl; auto).
  exists p. split; [rewrite life_app, H1; cbn [life]; rewrite N; auto|]. split; [auto|]. rewrite (queued_app _ _ _ _ _ H1), dropped_app, taken_app, H2, H3, H4. cbn [queued]. rewrite N.
  destruct H6 as [[-> [_ T]]|[-> _]]; cbn [heard dropped taken flat_map app]; rewrite Nat.eqb_refl, ?T; cbn [app]; rewrite ?app_nil_r, <- ?app_assoc; auto.
Qed.

Lemma attached_taken : forall i tr p, life i Fresh tr = Some p -> match p with Attached _ _ | Raw _ | Fresh => taken i tr = [] | _ => True end.
Proof.
  intros i tr. assert (G : forall p0 p, life i p0 tr = Some p -> match p with Attached _ _ | Raw _ | Fresh => taken i tr = [] /\ match p0 with InUse _ _ | Gone => False | _ => True end | _ => True end).
  { induction tr as [|h tr IH]; intros p0 p H; cbn [life] in H; [apply some_inj in H; subst; destruct p; auto|]. destruct (next i p0 h) as [q|] eqn:E; [|discriminate]. specialize (IH _ _ H). destruct p; auto; destruct IH as [IH1 IH2]; unfold taken in *; cbn [flat_map]; rewrite IH1;
    unfold next in E; (destruct h as [ix1 m1|j fd0|j|j b1 ix0|j ix0|j|j|j a|j|j fd0| |j a|j fd0]; cbn [number_of] in E; [apply some_inj in E; subst q; auto|..]; try (destruct (Nat.eqb j i); [|apply some_inj in E; subst q; auto]); destruct p0; cbn [allowed] in E; try discriminate E;
      repeat match type of E with (if ?b then _ else _) = _ => destruct b; try discriminate E end; apply some_inj in E; subst q; auto; contradiction). }
  intros p H. specialize (G _ _ H). destruct p; auto; apply G.
Qed.

Lemma raw_dropped : forall i tr p, life i Fresh tr = Some p -> match p with Raw _ | Fresh => dropped i tr = [] | _ => True end.
Proof.
  intros i tr. assert (G : forall p0 p, life i p0 tr = Some p -> match p with Raw _ | Fresh => dropped i tr = [] /\ match p0 with InUse _ _ | Gone | Attached _ _ => False | _ => True end | _ => True end).
  { induction tr as [|h tr IH]; intros p0 p H; cbn [life] in H; [apply some_inj in H; subst; destruct p; auto|]. destruct (next i p0 h) as [q|] eqn:E; [|discriminate]. specialize (IH _ _ H). destruct p; auto; destruct IH as [IH1 IH2]; unfold dropped in *; cbn [flat_map]; rewrite IH1;
    unfold next in E; (destruct h as [ix1 m1|j fd0|j|j b1 ix0|j ix0|j|j|j a|j|j fd0| |j a|j fd0]; cbn [number_of] in E; [apply some_inj in E; subst q; auto|..]; try (destruct (Nat.eqb j i); [|apply some_inj in E; subst q; auto]); destruct p0; cbn [allowed] in E; try discriminate E;
      repeat match type of E with (if ?b then _ else _) = _ => destruct b; try discriminate E end; apply some_inj in E; subst q; auto; contradiction). }
  intros p H. specialize (G _ _ H). destruct p; auto; apply G.
Qed.

Lemma opening_in : forall n m i fd, opening n m i fd -> In (i, fd) (ids m).
Proof. intros n m i fd H. rewrite (og_ids _ _ _ _ H). apply in_or_app. right. left. auto. Qed.

(** The phases of the sockets in use, after events about another one *)
Lemma use_aside : forall tr ev (m : machine) i0, (forall i fd, nth_error (m_fds m) i = Some fd -> In (i, fd) (ids m) -> exists ix, life i Fresh tr = Some (InUse fd ix)) -> (forall j, j <> i0 -> aside j ev) ->
  forall fds l, (forall i fd, nth_error fds i = Some fd -> In (i, fd) l -> i <> i0 /\ nth_error (m_fds m) i = Some fd /\ In (i, fd) (ids m)) ->
  forall i fd, nth_error fds i = Some fd -> In (i, fd) l -> exists ix, life i Fresh (tr ++ ev) = Some (InUse fd ix).
Proof.
  intros tr ev m i0 H HA fds l HL i fd H1 H2. destruct (HL _ _ H1 H2) as [D [H3 H4]]. destruct (H _ _ H3 H4) as [ix E]. exists ix. rewrite life_app, E. apply (aside_life _ _ _ (HA _ D)).
Qed.

Lemma nth_lt : forall (l : list Z) i x, nth_error l i = Some x -> (i < length l)%nat.
Proof. intros l i x H. apply nth_error_Some. congruence. Qed.

Lemma move_agrees : forall n tr m ch m1 ev, agrees n tr m -> move n m ch m1 ev -> agrees n (tr ++ ev) m1.
Proof.
  intros n tr m ch m1 ev [HC HK HX HU] H. pose proof (move_course _ _ _ _ _ HC H) as HC1. pose proof (co_no _ _ HC) as N1. pose proof (co_fd _ _ HC) as N2. constructor; [exact HC1|..]; clear HC1.
  all: destruct H as [ix x H|r i E H1 H2 H3 H4 H5 H6|r i E H1 H2 H3 H4 H5 H6 H7 H8|r i fd E H|r i fd y E H|r i fd y E H H0|r i fd x E H H0|r i fd y z E H|r i fd E H|r i fd E H|r i fd d k a q E H V F Q|r i fd d k ev E H V F Q|r i fd E H|r E H G B|sel late ready wr send E H G B L|sel ready wr send E H G B L R|r i l sel wr send E H L D B|r i l sel wr send k a q E H L D B F V Q|r sel wr send rs ev E H L D P|r j fd E L F X I G Y].
  all: try (assert (HI := opening_in _ _ _ _ H); destruct (view_sock _ _ _ N1 N2 HI) as [k0 [V1 [V2 [V3 V4]]]]).
  all: rewrite ?E in HX.
  (* what is known *)
  - intros i. unfold view, with_socks. cbn [m_socks]. rewrite find_map_same by (intros k; unfold enqueue; destruct (_ || _); auto). fold (view m i). apply known_enqueue. auto.
  - intros j. destruct (Nat.eq_dec i j) as [<-|D]; [|apply known_aside; [apply HK|apply (aside_one _ i); auto]]. change (view (MkM [] (m_fds m) (m_rs m) (m_socks m) [] [] (m_ev m) true) i) with (view m i).
    assert (V : view m i = None). { destruct (view m i) as [k|] eqn:V; [|auto]. destruct (view_in _ _ _ V) as [X _]. rewrite H3 in X. apply own_in, nth_lt in X. lia. }
    pose proof (HX _ (or_introl eq_refl)) as LF. cbn [expects] in LF. rewrite V. destruct (fresh_nothing _ _ LF) as [A1 [A2 A3]]. exists Fresh. rewrite life_app, LF. unfold life, next. cbn [number_of allowed]. rewrite Nat.eqb_refl. split; [auto|]. split; [auto|]. exists [].
    rewrite (queued_app _ _ _ _ _ LF), dropped_app, taken_app, A1, A2, A3. cbn [queued heard app dropped taken flat_map]. destruct (next i Fresh (NotOpened i)); auto.
  - intros j. unfold view, with_socks. cbn [m_socks]. assert (FA : forall l k, find (fun k => Nat.eqb (k_no k) j) (l ++ [k]) = match find (fun k => Nat.eqb (k_no k) j) l with Some x => Some x | None => if Nat.eqb (k_no k) j then Some k else None end).
    { induction l as [|x l IH]; intros k; cbn [app find]; [destruct (Nat.eqb (k_no k) j); auto|]. destruct (Nat.eqb (k_no x) j); auto. }
    rewrite FA. fold (view m j). cbn [k_no]. destruct (Nat.eqb_spec i j) as [<-|D].
    + assert (V : view m i = None). { destruct (view m i) as [k|] eqn:V; [|auto]. destruct (view_in _ _ _ V) as [X _]. rewrite H3 in X. apply own_in, nth_lt in X. lia. }
      rewrite V. pose proof (HX _ (or_introl eq_refl)) as LF. cbn [expects] in LF. destruct (fresh_nothing _ _ LF) as [A1 [A2 A3]]. apply (known_event tr (Opened i r) i (MkSock r i 0 false []) (MkSock r i 0 false []) Fresh (Raw r)); auto; [|cbn; auto]. rewrite A1, A2, A3. auto.
    + assert (W : match view m j with Some x => Some x | None => None end = view m j) by (destruct (view m j); auto). rewrite W. apply known_aside; [apply HK|apply (aside_one _ i); auto].
  - intros j. destruct (Nat.eq_dec i j) as [<-|D]; [|apply known_aside; [apply HK|apply (aside_one _ i); auto]]. change (view (with_code m (Lookup2 i fd r :: more (S i) n)) i) with (view m i). pose proof (HX _ (or_introl eq_refl)) as LF. cbn [expects] in LF. destruct (HK i) as [p [K1 K2]]. rewrite V1 in *. destruct K2 as [K2 K3]. assert (p = Raw fd) by congruence. subst p.
    eapply known_event; eauto; reflexivity.
  - intros j. destruct (Nat.eq_dec i j) as [<-|D]; [|apply known_aside; [apply HK|apply (aside_one _ i); auto]]. change (view (with_code m (Bind i fd y r :: more (S i) n)) i) with (view m i). pose proof (HX _ (or_introl eq_refl)) as LF. cbn [expects] in LF. destruct (HK i) as [p [K1 K2]]. rewrite V1 in *. destruct K2 as [K2 K3]. assert (p = Raw fd) by congruence. subst p.
    eapply known_event; eauto; reflexivity.
  - intros j. rewrite app_nil_r. apply HK.
  - intros j. destruct (Nat.eq_dec i j) as [<-|D]; [|apply known_aside; [apply HK|apply (aside_one _ i); auto]]. change (view (with_code m [Shut i fd]) i) with (view m i). pose proof (HX _ (or_introl eq_refl)) as LF. destruct (HK i) as [p [K1 K2]]. rewrite V1 in *. destruct K2 as [K2 K3]. apply (known_event tr (Refused i) i k0 k0 p p); auto.
    destruct H0 as [[y [z ->]]|[y ->]]; cbn [expects] in LF; [|destruct LF as [[ix LF] _]]; assert (p = Raw fd \/ exists ix, p = Attached fd ix) as [-> |[ix' ->]] by (rewrite K1 in LF; apply some_inj in LF; eauto); auto.
  - intros j. unfold view at 1, with_socks. cbn [m_socks]. rewrite (view_on_sock m i fd (set_if z) _ N1 N2 HI (fun _ => eq_refl) eq_refl j). destruct (Nat.eqb_spec j i) as [->|D]; [|apply known_aside; [apply HK|apply (aside_one _ i); auto]]. pose proof (HX _ (or_introl eq_refl)) as LF. cbn [expects] in LF. destruct (HK i) as [p [K1 K2]]. rewrite V1 in *. destruct K2 as [K2 K3]. assert (p = Raw fd) by congruence. subst p.
    eapply (known_event tr (Bound i z) i k0 (set_if z k0) (Raw fd)); try solve [eauto]; try reflexivity. cbn [fits set_if k_fd k_if] in *. tauto.
  - intros j. destruct (Nat.eq_dec i j) as [<-|D]; [|apply known_aside; [apply HK|apply (aside_one _ i); auto]]. change (view (with_code m (Drain i fd drain_turns :: more (S i) n)) i) with (view m i). pose proof (HX _ (or_introl eq_refl)) as LF. cbn [expects] in LF. destruct LF as [[ix LF] _]. destruct (HK i) as [p [K1 K2]]. rewrite V1 in *. destruct K2 as [K2 K3]. assert (p = Attached fd ix) by congruence. subst p.
    eapply known_event; eauto; reflexivity.
  - intros j. rewrite app_nil_r. unfold view at 1, with_socks. cbn [m_socks]. rewrite (view_on_sock m i fd set_aux _ N1 N2 HI (fun _ => eq_refl) eq_refl j). destruct (Nat.eqb_spec j i) as [->|D]; [|apply HK]. destruct (HK i) as [p [K1 K2]]. rewrite V1 in *. exists p. split; [auto|]. destruct K2 as [K2 K3]. split; [destruct p; cbn [fits set_aux k_fd k_if] in *; auto|]. exact K3.
  - intros j. unfold view at 1, with_socks. cbn [m_socks]. rewrite (view_on_sock m i fd (set_queue q) _ N1 N2 HI (fun _ => eq_refl) eq_refl j). destruct (Nat.eqb_spec j i) as [->|D]; [|apply known_aside; [apply HK|apply (aside_one _ i); auto]]. pose proof (HX _ (or_introl eq_refl)) as LF. cbn [expects] in LF. destruct LF as [[ix LF] _]. destruct (HK i) as [p [K1 K2]]. rewrite V in *. destruct K2 as [K2 K3]. assert (p = Attached fd ix) by congruence. subst p.
    eapply known_pop; eauto. left. split; [auto|]. split; [eauto|]. apply (attached_taken _ _ _ LF).
  - intros j. change (view (MkM (more (S i) n) (m_fds m ++ [fd]) (m_rs m) (m_socks m) [] [] (m_ev m) false) j) with (view m j). rewrite app_assoc.
    assert (HE : known (tr ++ ev) j (view m j)).
    { destruct Q as [[_ ->]|[[_ ->]| ->]]; [rewrite app_nil_r; auto|rewrite app_nil_r; auto|]. destruct (Nat.eq_dec i j) as [<-|D]; [|apply known_aside; [apply HK|apply (aside_one _ i); auto]]. pose proof (HX _ (or_introl eq_refl)) as LF. cbn [expects] in LF. destruct LF as [[ix LF] _]. destruct (HK i) as [p [K1 K2]]. rewrite V in *. destruct K2 as [K2 K3]. assert (p = Attached fd ix) by congruence. subst p. eapply known_event; eauto; reflexivity. }
    destruct (Nat.eq_dec i j) as [<-|D]; [|apply known_aside; [exact HE|apply (aside_one _ i); auto]]. pose proof (HX _ (or_introl eq_refl)) as LF. cbn [expects] in LF. destruct LF as [[ix LF] _].
    assert (LE : life i Fresh (tr ++ ev) = Some (Attached fd ix)) by (rewrite life_app, LF; destruct Q as [[_ ->]|[[_ ->]| ->]]; auto; unfold life, next; cbn [number_of]; rewrite Nat.eqb_refl; auto).
    destruct HE as [p [K1 K2]]. rewrite V in *. destruct K2 as [K2 K3]. assert (p = Attached fd ix) by congruence. subst p. eapply (known_event (tr ++ ev) (Usable i fd) i k k (Attached fd ix) (InUse fd ix)); eauto. cbn [allowed]. rewrite Z.eqb_refl. auto.
  - intros j. unfold view at 1. cbn [m_socks]. rewrite (view_without m i fd N1 N2 HI j). destruct (Nat.eqb_spec j i) as [->|D]; [|apply known_aside; [apply HK|apply (aside_one _ i); auto]]. destruct (HK i) as [p [K1 K2]]. rewrite V1 in K2. destruct K2 as [K2 K3].
    assert (N : next i p (Closed i fd) = Some Gone) by (unfold next; cbn [number_of]; rewrite Nat.eqb_refl; destruct p; cbn [fits allowed] in *; try contradiction; destruct K2 as [-> _]; rewrite V3, Z.eqb_refl; auto).
    exists Gone. rewrite life_app, K1. cbn [life]. rewrite N. split; [auto|]. split; [auto|]. exists (k_queue k0). rewrite (queued_app _ _ _ _ _ K1), dropped_app, taken_app. cbn [queued heard]. rewrite N. cbn [dropped taken flat_map app]. rewrite !app_nil_r. auto.
  - intros j. rewrite app_nil_r. apply HK.
  - intros j. apply known_aside; [apply HK|apply aside_turn].
  - intros j. apply known_aside; [apply HK|apply aside_turn].
  - intros j. destruct (Nat.eq_dec i j) as [<-|D']; [|apply known_aside; [apply HK|apply (aside_one _ i); auto]]. change (view (with_code m (map Recv l ++ Serve sel wr send :: tail n)) i) with (view m i).
    assert (Li : (i < n)%nat) by (apply B; left; auto). destruct (nth_error (m_fds m) i) as [fd|] eqn:EN; [|apply nth_error_None in EN; rewrite (od_fds _ _ H) in EN; lia]. assert (HI : In (i, fd) (ids m)) by (rewrite (od_ids _ _ H); eapply nth_error_In; apply own_nth; eauto). destruct (HU _ _ EN HI) as [ix LF]. destruct (view_sock _ _ _ N1 N2 HI) as [k0 [V1 [V2 [V3 V4]]]].
    destruct (HK i) as [p [K1 K2]]. rewrite V1 in *. destruct K2 as [K2 K3]. assert (p = InUse fd ix) by congruence. subst p. eapply known_event; eauto; reflexivity.
  - assert (HI : In (i, k_fd k) (ids m)) by (rewrite (od_ids _ _ H); eapply nth_error_In; apply own_nth; eauto). intros j. unfold view at 1. cbn [m_socks]. rewrite (view_on_sock m i (k_fd k) (set_queue q) _ N1 N2 HI (fun _ => eq_refl) eq_refl j). destruct (Nat.eqb_spec j i) as [->|D']; [|apply known_aside; [apply HK|apply (aside_one _ i); auto]].
    destruct (HU _ _ F HI) as [ix LF]. destruct (HK i) as [p [K1 K2]]. rewrite V in *. destruct K2 as [K2 K3]. assert (p = InUse (k_fd k) ix) by congruence. subst p. eapply known_pop; eauto.
  - intros j. rewrite app_nil_r. apply HK.
  - assert (HI : In (j, fd) (ids m)) by (rewrite I, (skipn_own _ _ _ X); left; auto). destruct (view_sock _ _ _ N1 N2 HI) as [k0 [V1 [V2 [V3 V4]]]]. intros i. unfold view at 1, with_socks. cbn [m_socks]. rewrite (view_without m j fd N1 N2 HI i). destruct (Nat.eqb_spec i j) as [->|D]; [|apply known_aside; [apply HK|apply (aside_one _ j); auto]]. destruct (HK j) as [p [K1 K2]]. rewrite V1 in K2. destruct K2 as [K2 K3].
    assert (N : next j p (Closed j fd) = Some Gone) by (unfold next; cbn [number_of]; rewrite Nat.eqb_refl; destruct p; cbn [fits allowed] in *; try contradiction; destruct K2 as [-> _]; rewrite V3, Z.eqb_refl; auto).
    exists Gone. rewrite life_app, K1. cbn [life]. rewrite N. split; [auto|]. split; [auto|]. exists (k_queue k0). rewrite (queued_app _ _ _ _ _ K1), dropped_app, taken_app. cbn [queued heard]. rewrite N. cbn [dropped taken flat_map app]. rewrite !app_nil_r. auto.
  (* the code *)
  - intros y Hy. apply expects_arrived. apply HX. exact Hy.
  - intros y [].
  - intros y Hy. cbn [with_socks m_code] in Hy. destruct Hy as [<-|Hy]; [|eapply expects_more; [intros z Hz; apply HX; right; exact Hz|intros j D; apply (aside_one _ i); auto|exact Hy]]. pose proof (HX _ (or_introl eq_refl)) as LF. cbn [expects] in *. rewrite life_app, LF. unfold life, next. cbn [number_of allowed]. rewrite Nat.eqb_refl. auto.
  - intros w Hy. cbn [with_code m_code] in Hy. destruct Hy as [<-|Hy]; [|eapply expects_more; [intros z Hz; apply HX; right; exact Hz|intros j D; apply (aside_one _ i); auto|exact Hy]]. pose proof (HX _ (or_introl eq_refl)) as LF. cbn [expects] in *. rewrite life_app, LF. unfold life, next. cbn [number_of allowed]. rewrite Nat.eqb_refl. auto.
  - intros w Hy. cbn [with_code m_code] in Hy. destruct Hy as [<-|Hy]; [|eapply expects_more; [intros z Hz; apply HX; right; exact Hz|intros j D; apply (aside_one _ i); auto|exact Hy]]. pose proof (HX _ (or_introl eq_refl)) as LF. cbn [expects] in *. rewrite life_app, LF. unfold life, next. cbn [number_of allowed]. rewrite Nat.eqb_refl. auto.
  - intros w Hy. cbn [with_code m_code] in Hy. rewrite app_nil_r. destruct Hy as [<-|Hy]; [|apply HX; right; auto]. apply (HX _ (or_introl eq_refl)).
  - intros w [<-|[]]. exact I.
  - intros w Hy. cbn [with_socks m_code] in Hy. destruct Hy as [<-|Hy]; [|eapply expects_more; [intros u Hz; apply HX; right; exact Hz|intros j D; apply (aside_one _ i); auto|exact Hy]]. pose proof (HX _ (or_introl eq_refl)) as LF. cbn [expects] in *. split; [exists z; rewrite life_app, LF; unfold life, next; cbn [number_of allowed]; rewrite Nat.eqb_refl; auto|]. rewrite dropped_app, (raw_dropped _ _ _ LF). auto.
  - intros w Hy. cbn [with_code m_code] in Hy. destruct Hy as [<-|Hy]; [|eapply expects_more; [intros u Hz; apply HX; right; exact Hz|intros j D; apply (aside_one _ i); auto|exact Hy]]. pose proof (HX _ (or_introl eq_refl)) as LF. cbn [expects] in *. destruct LF as [[ix LF] LD]. split; [exists ix; rewrite life_app, LF; unfold life, next; cbn [number_of allowed]; rewrite Nat.eqb_refl; auto|]. rewrite dropped_app, LD. auto.
  - intros w Hy. cbn [with_socks m_code] in Hy. rewrite app_nil_r. destruct Hy as [<-|Hy]; [|apply HX; right; auto]. pose proof (HX _ (or_introl eq_refl)) as LF. cbn [expects] in *. destruct LF as [LF LD]. split; [auto|]. rewrite LD. auto.
  - intros w Hy. cbn [with_socks m_code] in Hy. destruct Hy as [<-|Hy]; [|eapply expects_more; [intros u Hz; apply HX; right; exact Hz|intros j D; apply (aside_one _ i); auto|exact Hy]]. pose proof (HX _ (or_introl eq_refl)) as LF. cbn [expects] in *. destruct LF as [[ix LF] LD]. split; [exists ix; rewrite life_app, LF; unfold life, next; cbn [number_of allowed]; rewrite Nat.eqb_refl; auto|]. rewrite dropped_app, app_length. cbn [dropped flat_map]. rewrite Nat.eqb_refl. cbn [app length]. lia.
  - intros w Hy. cbn [m_code] in Hy. eapply expects_more; [intros u Hz; apply HX; right; exact Hz| |exact Hy]. intros j D u Hu. apply in_app_or in Hu. destruct Hu as [Hu|[<-|[]]]; [|cbn; congruence]. destruct Q as [[_ ->]|[[_ ->]| ->]]; try destruct Hu as [<-|[]]; try destruct Hu. cbn. congruence.
  - intros w [].
  - intros w Hy. rewrite app_nil_r. apply HX. right. exact Hy.
  - intros w Hy. cbn [m_code] in Hy. apply in_map_iff in Hy. destruct Hy as [u [<- _]]. exact I.
  - intros w Hy. cbn [with_code m_code] in Hy. apply in_app_or in Hy. destruct Hy as [Hy|[<-|[<-|Hy]]]; try exact I; apply in_map_iff in Hy; destruct Hy as [u [<- _]]; exact I.
  - intros w Hy. cbn [with_code m_code] in Hy. apply in_app_or in Hy. destruct Hy as [Hy|[<-|[<-|Hy]]]; try exact I; apply in_map_iff in Hy; destruct Hy as [u [<- _]]; exact I.
  - intros w Hy. cbn [m_code] in Hy. apply in_app_or in Hy. destruct Hy as [Hy|[<-|[<-|Hy]]]; try exact I; apply in_map_iff in Hy; destruct Hy as [u [<- _]]; exact I.
  - intros w Hy. cbn [m_code] in Hy. destruct Hy as [<-|Hy]; try exact I; apply in_map_iff in Hy; destruct Hy as [u [<- _]]; exact I.
  - intros w Hy. cbn [with_socks m_code] in Hy. apply in_map_iff in Hy. destruct Hy as [u [<- _]]. exact Logic.I.
  (* the sockets in use *)
  - intros i fd A1 A2. rewrite ids_enqueue in A2. destruct (HU _ _ A1 A2) as [ix' A3]. exists ix'. rewrite life_app, A3. reflexivity.
  - apply (use_aside tr _ m i HU); [intros j D; apply (aside_one _ i); auto|]. intros j fd A1 A2. cbn [m_fds] in A1. split; [|split; [auto|exact A2]]. apply nth_lt in A1. lia.
  - apply (use_aside tr _ m i HU); [intros j D; apply (aside_one _ i); auto|]. intros j fd A1 A2. cbn [with_socks m_fds] in A1. assert (j <> i) by (apply nth_lt in A1; lia). split; [auto|]. split; [auto|]. unfold ids, with_socks in A2. cbn [m_socks] in A2. rewrite map_app in A2. apply in_app_or in A2. destruct A2 as [A2|[A2|[]]]; [exact A2|]. cbn in A2. congruence.
  - apply (use_aside tr _ m i HU); [intros j D; apply (aside_one _ i); auto|]. intros j fd' A1 A2. cbn [with_code m_fds] in A1. split; [|split; [auto|exact A2]]. apply nth_lt in A1. rewrite (og_fds _ _ _ _ H) in A1. lia.
  - apply (use_aside tr _ m i HU); [intros j D; apply (aside_one _ i); auto|]. intros j fd' A1 A2. cbn [with_code m_fds] in A1. split; [|split; [auto|exact A2]]. apply nth_lt in A1. rewrite (og_fds _ _ _ _ H) in A1. lia.
  - rewrite app_nil_r. exact HU.
  - apply (use_aside tr _ m i HU); [intros j D; apply (aside_one _ i); auto|]. intros j fd' A1 A2. cbn [with_code m_fds] in A1. split; [|split; [auto|exact A2]]. apply nth_lt in A1. rewrite (og_fds _ _ _ _ H) in A1. lia.
  - apply (use_aside tr _ m i HU); [intros j D; apply (aside_one _ i); auto|]. intros j fd' A1 A2. rewrite ids_on_sock in A2 by reflexivity. cbn [with_socks m_fds] in A1. split; [|split; [auto|exact A2]]. apply nth_lt in A1. rewrite (og_fds _ _ _ _ H) in A1. lia.
  - apply (use_aside tr _ m i HU); [intros j D; apply (aside_one _ i); auto|]. intros j fd' A1 A2. cbn [with_code m_fds] in A1. split; [|split; [auto|exact A2]]. apply nth_lt in A1. rewrite (og_fds _ _ _ _ H) in A1. lia.
  - rewrite app_nil_r. intros j fd' A1 A2. rewrite ids_on_sock in A2 by reflexivity. apply HU; auto.
  - apply (use_aside tr _ m i HU); [intros j D; apply (aside_one _ i); auto|]. intros j fd' A1 A2. rewrite ids_on_sock in A2 by reflexivity. cbn [with_socks m_fds] in A1. split; [|split; [auto|exact A2]]. apply nth_lt in A1. rewrite (og_fds _ _ _ _ H) in A1. lia.
  - intros j fd' A1 A2. change (In (j, fd') (ids m)) in A2. cbn [m_fds] in A1. pose proof (og_fds _ _ _ _ H) as EF. destruct (Nat.eq_dec i j) as [<-|D].
    + rewrite nth_error_app2, EF, Nat.sub_diag in A1 by lia. cbn in A1. apply some_inj in A1. subst fd'. pose proof (HX _ (or_introl eq_refl)) as LF. cbn [expects] in LF. destruct LF as [[ix LF] _]. exists ix.
      assert (LE : life i Fresh (tr ++ ev) = Some (Attached fd ix)) by (rewrite life_app, LF; destruct Q as [[_ ->]|[[_ ->]| ->]]; auto; unfold life, next; cbn [number_of]; rewrite Nat.eqb_refl; auto).
      rewrite app_assoc, life_app, LE. unfold life, next. cbn [number_of allowed]. rewrite Nat.eqb_refl, Z.eqb_refl. auto.
    + assert (A3 : (j < length (m_fds m ++ [fd]))%nat) by (apply nth_lt in A1; auto). rewrite app_length in A3. cbn [length] in A3. rewrite nth_error_app1 in A1 by lia. destruct (HU _ _ A1 A2) as [ix LF]. exists ix. rewrite life_app, LF. apply aside_life. intros u Hu. apply in_app_or in Hu. destruct Hu as [Hu|[<-|[]]]; [|cbn; congruence]. destruct Q as [[_ ->]|[[_ ->]| ->]]; try destruct Hu as [<-|[]]; try destruct Hu. cbn. congruence.
  - apply (use_aside tr _ m i HU); [intros j D; apply (aside_one _ i); auto|]. intros j fd' A1 A2. cbn [m_fds] in A1. split; [apply nth_lt in A1; rewrite (og_fds _ _ _ _ H) in A1; lia|]. split; [auto|]. unfold ids in A2. cbn [m_socks] in A2. rewrite ids_without in A2. apply filter_In in A2. apply A2.
  - rewrite app_nil_r. exact HU.
  - intros j fd' A1 A2. destruct (HU _ _ A1 A2) as [ix LF]. exists ix. rewrite life_app, LF. auto.
  - intros j fd' A1 A2. destruct (HU _ _ A1 A2) as [ix LF]. exists ix. rewrite life_app, LF. auto.
  - intros j fd' A1 A2. destruct (HU _ _ A1 A2) as [ix LF]. exists ix. rewrite life_app, LF. unfold life, next. cbn [number_of]. destruct (Nat.eqb i j); auto.
  - intros j fd' A1 A2. assert (A3 : In (j, fd') (ids m)) by (rewrite <- (ids_on_sock (k_fd k) (set_queue q) m []) by reflexivity; exact A2). destruct (HU _ _ A1 A3) as [ix LF]. exists ix. rewrite life_app, LF. unfold life, next. cbn [number_of]. destruct (Nat.eqb i j); auto.
  - rewrite app_nil_r. exact HU.
  - apply (use_aside tr _ m j HU); [intros i D; apply (aside_one _ j); auto|]. intros i fd' A1 A2. cbn [with_socks m_fds] in A1. unfold ids, with_socks in A2. cbn [m_socks] in A2. rewrite ids_without in A2. apply filter_In in A2. destruct A2 as [A2 A3]. split; [|split; auto]. intros ->. assert (fd' = fd) by congruence. subst fd'. cbn [snd] in A3. rewrite Z.eqb_refl in A3. discriminate A3.
Qed.

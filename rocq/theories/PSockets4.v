(** Proofs about sockets: what is judged, and where it comes from (C91, C92). *)

From Coq Require Import Permutation.
From Verif Require Import BaseFacts SpecSockets PSockets PSockets2 PSockets3.

Lemma begin_agrees : forall rs, agrees (length rs) [] (begin rs).
Proof.
  intros rs. constructor; [apply begin_course|..].
  - intros i. exists Fresh. split; [auto|]. split; [auto|]. exists []. auto.
  - intros x Hx. unfold begin in Hx. cbn [m_code] in Hx. apply in_app_or in Hx. destruct Hx as [Hx|[<-|Hx]]; [|exact I|]; apply in_map_iff in Hx; destruct Hx as [j [<- _]]; cbn; auto.
  - intros i fd _ [].
Qed.

Lemma run_agrees : forall (P : list happening -> machine -> Prop) n m0, agrees n [] m0 -> P [] m0 ->
  (forall tr m ch m1 ev, agrees n tr m -> P tr m -> move n m ch m1 ev -> P (tr ++ ev) m1) -> forall sch m tr, run sch m0 = Some (m, tr) -> agrees n tr m /\ P tr m.
Proof.
  intros P n m0 H0 P0 HS. apply (run_inv (fun tr m => agrees n tr m /\ P tr m) m0); [auto|]. intros tr m ch m1 ev [HA HP] H. apply (step_move n) in H; [|apply (ag_course _ _ _ HA)]. split; [eapply move_agrees; eauto|eauto].
Qed.

(** *** Tags *)
Lemma untagged_app : forall i a b, untagged i (a ++ b) = untagged i a || untagged i b.
Proof. intros. apply existsb_app. Qed.

Definition tags (tr : list happening) (m : machine) (x : instr) : Prop :=
  match x with
  | Socket i => untagged i tr = false
  | Lookup i _ | Lookup2 i _ _ | Bind i _ _ _ | Promisc i _ _ | Auxdata i _ => untagged i tr = false /\ forall k, view m i = Some k -> k_aux k = false
  | Drain i _ _ => forall k, view m i = Some k -> k_aux k = negb (untagged i tr)
  | _ => True
  end.

Record tagged (tr : list happening) (m : machine) : Prop := {
  tg_code : forall x, In x (m_code m) -> tags tr m x;
  tg_use : forall i k, (i < length (m_fds m))%nat -> view m i = Some k -> k_aux k = negb (untagged i tr) }.

Definition same_aux (m m1 : machine) : Prop := forall j k', view m1 j = Some k' -> exists k, view m j = Some k /\ k_aux k' = k_aux k.

Lemma tags_same : forall tr ev m m1 x, same_aux m m1 -> (forall j, untagged j ev = false) -> tags tr m x -> tags (tr ++ ev) m1 x.
Proof.
  intros tr ev m m1 x HS HU H. destruct x; cbn [tags] in *; auto; rewrite ?untagged_app, ?HU, ?orb_false_r; auto; try (destruct H as [H1 H2]; split; [auto|]); intros k V; destruct (HS _ _ V) as [k0 [V0 ->]]; rewrite ?untagged_app, ?HU, ?orb_false_r; auto.
Qed.
Lemma tagged_same : forall tr ev m m1, same_aux m m1 -> (forall j, untagged j ev = false) -> tagged tr m -> (forall x, In x (m_code m1) -> tags tr m x) -> (length (m_fds m1) <= length (m_fds m))%nat -> tagged (tr ++ ev) m1.
Proof.
  intros tr ev m m1 HS HU [H1 H2] HC HL. constructor.
  - intros x Hx. apply (tags_same _ _ m); auto.
  - intros i k L V. destruct (HS _ _ V) as [k0 [V0 ->]]. rewrite untagged_app, HU, orb_false_r. apply H2; [lia|auto].
Qed.

Lemma same_refl : forall m c, m_socks c = m_socks m -> same_aux m c.
Proof. intros m c H j k V. exists k. unfold view in *. rewrite <- H. auto. Qed.
Lemma same_on : forall m i fd f m1, NoDup (map fst (ids m)) -> NoDup (map snd (ids m)) -> In (i, fd) (ids m) -> (forall k, k_no (f k) = k_no k) -> (forall k, k_aux (f k) = k_aux k) -> m_socks m1 = on_sock fd f m -> same_aux m m1.
Proof.
  intros m i fd f m1 N1 N2 HI F1 F2 E j k V. unfold view in V. rewrite (view_on_sock m i fd f _ N1 N2 HI F1 E j) in V. destruct (Nat.eqb_spec j i) as [->|_]; [|eauto]. destruct (view m i) as [k0|] eqn:V0; [|discriminate]. apply some_inj in V. subst k. eauto.
Qed.
Lemma same_without : forall m i fd m1, NoDup (map fst (ids m)) -> NoDup (map snd (ids m)) -> In (i, fd) (ids m) -> m_socks m1 = without fd m -> same_aux m m1.
Proof.
  intros m i fd m1 N1 N2 HI E j k V. unfold view in V. rewrite E, (view_without m i fd N1 N2 HI j) in V. destruct (Nat.eqb j i); [discriminate|]. eauto.
Qed.

Ltac split_move H := destruct H as [ix x H|r i E H1 H2 H3 H4 H5 H6|r i E H1 H2 H3 H4 H5 H6 H7 H8|r i fd E H|r i fd y E H|r i fd y E H H0|r i fd x E H H0|r i fd y z E H|r i fd E H|r i fd E H|r i fd d k a q E H V F Q|r i fd d k ev E H V F Q|r i fd E H|r E H G B|sel late ready wr send E H G B L|sel ready wr send E H G B L R|r i l sel wr send E H L D B|r i l sel wr send k a q E H L D B F V Q|r sel wr send rs ev E H L D P|r j fd E L F X I G Y].

Lemma find_snoc : forall j l (k : sock), find (fun k => Nat.eqb (k_no k) j) (l ++ [k]) = match find (fun k => Nat.eqb (k_no k) j) l with Some x => Some x | None => if Nat.eqb (k_no k) j then Some k else None end.
Proof. intros j. induction l as [|x l IH]; intros k; cbn [app find]; [destruct (Nat.eqb (k_no k) j); auto|]. destruct (Nat.eqb (k_no x) j); auto. Qed.

Lemma view_new : forall m i, ids m = own (m_fds m) -> (length (m_fds m) <= i)%nat -> view m i = None.
Proof. intros m i H L. destruct (view m i) as [k|] eqn:V; [|auto]. destruct (view_in _ _ _ V) as [X _]. rewrite H in X. apply own_in, nth_lt in X. lia. Qed.

Lemma move_tagged : forall n tr m ch m1 ev, agrees n tr m -> tagged tr m -> move n m ch m1 ev -> tagged (tr ++ ev) m1.
Proof.
  intros n tr m ch m1 ev HA HT H. pose proof (ag_course _ _ _ HA) as HC. pose proof (co_no _ _ HC) as N1. pose proof (co_fd _ _ HC) as N2. pose proof (tg_code _ _ HT) as TC. pose proof (tg_use _ _ HT) as TU. split_move H;
    try (assert (HI := opening_in _ _ _ _ H); destruct (view_sock _ _ _ N1 N2 HI) as [k0 [V1 [V2 [V3 V4]]]]); rewrite ?E in TC.
  - apply (tagged_same _ _ m); auto. intros j k' V. unfold view, with_socks in V. cbn [m_socks] in V. rewrite find_map_same in V by (intros k; unfold enqueue; destruct (_ || _); auto). fold (view m j) in V. destruct (view m j) as [k|]; [|discriminate]. apply some_inj in V. subst k'. exists k. split; [auto|]. unfold enqueue. destruct (_ || _); auto.
  - apply (tagged_same _ _ m); auto; [apply same_refl; auto|]. intros w [].
  - constructor.
    + intros w Hw. cbn [with_socks m_code] in Hw. destruct Hw as [<-|Hw].
      * cbn [tags]. rewrite untagged_app. cbn [untagged existsb]. rewrite orb_false_r. split; [apply (TC (Socket i)); left; auto|]. intros k V. unfold view, with_socks in V. cbn [m_socks] in V. rewrite find_snoc in V. fold (view m i) in V. rewrite (view_new m i H3) in V by lia. cbn [k_no] in V. rewrite Nat.eqb_refl in V. apply some_inj in V. subst k. auto.
      * assert (T : tags tr m w) by (apply TC; right; auto). destruct (in_more _ _ _ Hw) as [[j [-> L]]|[-> |[j ->]]]; try exact I. cbn [tags] in *. rewrite untagged_app, T. auto.
    + intros j k L V. unfold view, with_socks in V. cbn [with_socks m_socks m_fds] in *. rewrite find_snoc in V. fold (view m j) in V. cbn [k_no] in V. rewrite untagged_app. cbn [untagged existsb]. rewrite orb_false_r. destruct (view m j) as [k'|] eqn:V'; [apply some_inj in V; subst k'; auto|]. destruct (Nat.eqb_spec i j); [lia|discriminate].
  - apply (tagged_same _ _ m); auto; [apply same_refl; auto|]. intros w [<-|Hw]; [apply (TC (Lookup i fd)); left; auto|apply TC; right; auto].
  - apply (tagged_same _ _ m); auto; [apply same_refl; auto|]. intros w [<-|Hw]; [apply (TC (Lookup2 i fd y)); left; auto|apply TC; right; auto].
  - apply (tagged_same _ _ m); auto; [apply same_refl; auto|]. intros w [<-|Hw]; [apply (TC (Promisc i fd y)); left; auto|apply TC; right; auto].
  - apply (tagged_same _ _ m); auto; [apply same_refl; auto|]. intros w [<-|[]]. exact I.
  - apply (tagged_same _ _ m); auto; [apply (same_on m i fd (set_if z)); auto|]. intros w [<-|Hw]; [apply (TC (Bind i fd y z)); left; auto|apply TC; right; auto].
  - destruct (TC _ (or_introl eq_refl)) as [T1 T2]. constructor.
    + intros w [<-|Hw].
      * cbn [tags]. intros k V. change (view m i = Some k) in V. rewrite (T2 _ V), untagged_app. cbn [untagged existsb]. rewrite Nat.eqb_refl, orb_true_r. auto.
      * assert (T : tags tr m w) by (apply TC; right; auto). destruct (in_more _ _ _ Hw) as [[j [-> L]]|[-> |[j ->]]]; try exact I. cbn [tags] in *. rewrite untagged_app, T. cbn [untagged existsb orb]. destruct (Nat.eqb_spec i j); [lia|auto].
    + intros j k L V. change (view m j = Some k) in V. cbn [with_code m_fds] in L. rewrite (TU _ _ L V), untagged_app. cbn [untagged existsb]. rewrite (og_fds _ _ _ _ H) in L. destruct (Nat.eqb_spec i j); [lia|]. cbn [orb]. rewrite orb_false_r. auto.
  - destruct (TC _ (or_introl eq_refl)) as [T1 T2]. rewrite app_nil_r. assert (VW : forall j, view (with_socks m (Drain i fd drain_turns :: more (S i) n) (on_sock fd set_aux m)) j = if Nat.eqb j i then Some (set_aux k0) else view m j).
    { intros j. unfold view at 1, with_socks. cbn [m_socks]. rewrite (view_on_sock m i fd set_aux _ N1 N2 HI (fun _ => eq_refl) eq_refl j), V1. auto. }
    constructor.
    + intros w [<-|Hw].
      * cbn [tags]. intros k V. rewrite VW, Nat.eqb_refl in V. apply some_inj in V. subst k. rewrite T1. auto.
      * assert (T : tags tr m w) by (apply TC; right; auto). destruct (in_more _ _ _ Hw) as [[j [-> L]]|[-> |[j ->]]]; try exact I. exact T.
    + intros j k L V. cbn [with_socks m_fds] in L. pose proof (og_fds _ _ _ _ H). rewrite VW in V. destruct (Nat.eqb_spec j i); [lia|]. auto.
  - apply (tagged_same _ _ m); auto; [apply (same_on m i fd (set_queue q)); auto|]. intros w [<-|Hw]; [apply (TC (Drain i fd (S d))); left; auto|apply TC; right; auto].
  - assert (U : forall j, untagged j (ev ++ [Usable i fd]) = false) by (intros j; rewrite untagged_app; destruct Q as [[_ ->]|[[_ ->]| ->]]; auto). constructor.
    + intros w Hw. apply (tags_same _ _ m); auto; [apply same_refl; auto|]. apply TC. right. auto.
    + intros j k' L V'. change (view m j = Some k') in V'. rewrite untagged_app, U, orb_false_r. cbn [m_fds] in L. rewrite app_length, (og_fds _ _ _ _ H) in L. cbn [length] in L. destruct (Nat.eq_dec j i) as [->|D]; [apply (TC _ (or_introl eq_refl)); auto|]. apply TU; [rewrite (og_fds _ _ _ _ H); lia|auto].
  - apply (tagged_same _ _ m); auto; [apply (same_without m i fd); auto|]. intros w [].
  - apply (tagged_same _ _ m); auto; [apply same_refl; auto|]. intros w Hw. apply TC. right. auto.
  - apply (tagged_same _ _ m); auto; [apply same_refl; auto|]. intros w Hw. apply TC. right. auto.
  - apply (tagged_same _ _ m); auto; [apply same_refl; auto|]. intros w Hy. cbn [with_code m_code] in Hy. apply in_app_or in Hy. destruct Hy as [Hy|[<-|[<-|Hy]]]; try exact I; apply in_map_iff in Hy; destruct Hy as [u [<- _]]; exact I.
  - apply (tagged_same _ _ m); auto; [apply same_refl; auto|]. intros w Hw. apply TC. right. auto.
  - assert (HI : In (i, k_fd k) (ids m)) by (rewrite (od_ids _ _ H); eapply nth_error_In; apply own_nth; eauto). apply (tagged_same _ _ m); auto; [apply (same_on m i (k_fd k) (set_queue q)); auto|]. intros w Hw. apply TC. right. auto.
  - apply (tagged_same _ _ m); auto; [apply same_refl; auto|]. intros w Hw. apply TC. right. auto.
  - assert (HI : In (j, fd) (ids m)) by (rewrite I, (skipn_own _ _ _ X); left; auto). apply (tagged_same _ _ m); auto; [apply (same_without m j fd); auto|]. intros w Hw. apply TC. right. auto.
Qed.

(** *** What is judged *)
Definition opt (o : option rxmsg) : list rxmsg := match o with Some x => [x] | None => [] end.
Definition judged (tr : list happening) (m : machine) : Prop :=
  forall i, delivered i (m_rounds m) ++ opt (got (m_got m) i) = map (fun a => as_seen i tr (snd a)) (taken i tr).

Lemma delivered_app : forall i a b, delivered i (a ++ b) = delivered i a ++ delivered i b.
Proof. intros. apply flat_map_app. Qed.

Lemma judged_same : forall tr ev m m1, judged tr m -> (forall j, untagged j ev = false) -> (forall j, taken j ev = []) -> (forall j, delivered j (m_rounds m1) ++ opt (got (m_got m1) j) = delivered j (m_rounds m) ++ opt (got (m_got m) j)) -> judged (tr ++ ev) m1.
Proof.
  intros tr ev m m1 H HU HT HD i. rewrite HD, H, taken_app, HT, app_nil_r. apply map_ext. intros a. unfold as_seen. rewrite untagged_app, HU, orb_false_r. auto.
Qed.

Lemma got_snoc : forall l i x j, ~ In i (map fst l) -> opt (got (l ++ [(i, x)]) j) = if Nat.eqb i j then opt (Some x) else opt (got l j).
Proof.
  intros l i x j. unfold got. induction l as [|[a b] l IH]; intros H; cbn [app find fst].
  - destruct (Nat.eqb i j); auto.
  - cbn [map fst In] in H. assert (H1 : a <> i) by (intros X; apply H; auto). assert (H2 : ~ In i (map fst l)) by (intros X; apply H; auto). specialize (IH H2). destruct (Nat.eqb_spec a j) as [->|]; [|exact IH]. destruct (Nat.eqb_spec i j); [congruence|auto].
Qed.
Lemma got_none : forall l i, ~ In i (map fst l) -> got l i = None.
Proof.
  intros l i H. unfold got. destruct (find _ l) as [[a b]|] eqn:E; [|auto]. apply find_some in E. destruct E as [E1 E2]. cbn [fst] in E2. apply Nat.eqb_eq in E2. subst a. exfalso. apply H. apply in_map_iff. exists (i, b). auto.
Qed.

Lemma move_judged : forall n tr m ch m1 ev, agrees n tr m -> tagged tr m -> judged tr m -> move n m ch m1 ev -> judged (tr ++ ev) m1.
Proof.
  intros n tr m ch m1 ev HA HT HJ H. pose proof (ag_course _ _ _ HA) as HC. split_move H.
  - apply (judged_same _ _ m); auto.
  - apply (judged_same _ _ m); auto. intros j. cbn [m_rounds m_got]. rewrite H4, H5. auto.
  - apply (judged_same _ _ m); auto.
  - apply (judged_same _ _ m); auto.
  - apply (judged_same _ _ m); auto.
  - apply (judged_same _ _ m); auto.
  - apply (judged_same _ _ m); auto.
  - apply (judged_same _ _ m); auto.
  - intros j. cbn [with_code m_rounds m_got]. rewrite HJ, taken_app. cbn [taken flat_map]. rewrite app_nil_r. destruct (Nat.eq_dec i j) as [<-|D].
    + pose proof (ag_code _ _ _ HA) as HX. rewrite E in HX. destruct (HX _ (or_introl eq_refl)) as [[ix LF] _]. pose proof (attached_taken _ _ _ LF) as T. cbn beta iota in T. rewrite T. auto.
    + apply map_ext. intros a. unfold as_seen. rewrite untagged_app. cbn [untagged existsb]. destruct (Nat.eqb_spec i j); [congruence|]. cbn [orb]. rewrite orb_false_r. auto.
  - apply (judged_same _ _ m); auto.
  - apply (judged_same _ _ m); auto.
  - apply (judged_same _ _ m); [exact HJ|..]; intros j; [destruct Q as [[_ ->]|[[_ ->]| ->]]; auto|destruct Q as [[_ ->]|[[_ ->]| ->]]; auto|]. cbn [m_rounds m_got]. rewrite (og_got _ _ _ _ H), (og_rounds _ _ _ _ H). auto.
  - apply (judged_same _ _ m); auto. intros j. cbn [m_rounds m_got]. rewrite (og_got _ _ _ _ H), (og_rounds _ _ _ _ H). auto.
  - apply (judged_same _ _ m); auto.
  - apply (judged_same _ _ m); auto. intros j. cbn [m_rounds m_got]. rewrite delivered_app, G. cbn [delivered flat_map rd_rx app]. rewrite app_nil_r. auto.
  - apply (judged_same _ _ m); auto.
  - apply (judged_same _ _ m); auto.
  - assert (HU : k_aux k = negb (untagged i tr)) by (apply (tg_use _ _ HT); [apply nth_lt in F; auto|auto]).
    intros j. cbn [m_rounds m_got]. assert (NI : ~ In i (map fst (m_got m))) by (apply NoDup_remove_2 in D; intros X; apply D, in_or_app; auto). rewrite got_snoc by auto. rewrite taken_app, map_app. cbn [taken flat_map].
    assert (ES : forall a, as_seen j (tr ++ [Taken i a]) = as_seen j tr) by (intros; unfold as_seen; rewrite untagged_app; cbn [untagged existsb]; rewrite orb_false_r; auto). rewrite ES. rewrite <- HJ. destruct (Nat.eqb_spec i j) as [<-|D'].
    + rewrite got_none by auto. cbn [opt app map]. rewrite app_nil_r. unfold seen, as_seen. rewrite HU. destruct (untagged i tr); auto.
    + cbn [app map]. rewrite app_nil_r. auto.
  - apply (judged_same _ _ m); auto. intros j. cbn [m_rounds m_got]. rewrite delivered_app. cbn [delivered flat_map rd_rx]. rewrite !app_nil_r. auto.
  - apply (judged_same _ _ m); auto.
Qed.

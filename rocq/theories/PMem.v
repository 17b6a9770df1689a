(** Memory: the basic operations. *)

From Verif Require Import SpecMem BaseFacts.
From Coq Require Import Permutation.

Definition runs {A B} (H : heap) (R : list addr) (m : M A) (o : out B)
  (Q : B -> A -> heap -> list addr -> Prop) : Prop :=
  match o with
  | Ret y => exists x H' T, m H = MRet x H' /\ in_use H' (T ++ R) /\ untouched H H' R /\ Q y x H' T
  | Crash c => m H = MCrash c
  end.

Lemma in_use_perm : forall H S S', in_use H S -> Permutation S S' -> in_use H S'.
Proof.
  intros H S S' [HN HI] HP. split.
  - eapply Permutation_NoDup; eauto.
  - intros a. rewrite <- HI. split; intros; [eapply Permutation_in; [symmetry|]; eauto | eapply Permutation_in; eauto].
Qed.

Lemma live_lt : forall H a, live H a -> (a < length H)%nat.
Proof. intros H a (s & b & E). apply nth_error_Some. unfold holds in E. congruence. Qed.

Lemma holds_live : forall H a s b, holds H a s b -> live H a.
Proof. intros. exists s, b. auto. Qed.

Lemma in_use_alloc : forall H S s b, in_use H S -> in_use (H ++ [Live s b]) (length H :: S).
Proof.
  intros H S s b [HN HI]. split.
  - constructor; auto. intros HC. apply HI in HC. apply live_lt in HC. lia.
  - intros a. split.
    + intros [E|E].
      * subst a. exists s, b. unfold holds. rewrite nth_error_app2 by lia. rewrite Nat.sub_diag. reflexivity.
      * pose proof (proj1 (HI a) E) as HL. pose proof (live_lt _ _ HL). destruct HL as (s' & b' & E'). exists s', b'. unfold holds. rewrite nth_error_app1 by lia. auto.
    + intros (s' & b' & E). unfold holds in E. destruct (Nat.lt_ge_cases a (length H)) as [HL|HL].
      * right. apply HI. exists s', b'. unfold holds. rewrite nth_error_app1 in E by lia. auto.
      * left. assert (a < length (H ++ [Live s b]))%nat by (apply nth_error_Some; congruence). rewrite app_length in *. cbn in *. lia.
Qed.

Lemma upd_same : forall A (l : list A) n v, (n < length l)%nat -> nth_error (upd l n v) n = Some v.
Proof. induction l as [|x l IH]; intros [|n] v HL; cbn in *; try lia; auto. apply IH. lia. Qed.

Lemma upd_other : forall A (l : list A) n k v, k <> n -> nth_error (upd l n v) k = nth_error l k.
Proof. induction l as [|x l IH]; intros [|n] [|k] v HL; cbn; auto; try congruence. Qed.

Lemma in_use_write : forall H S a s b b', holds H a s b -> in_use H S -> in_use (upd H a (Live s b')) S.
Proof.
  intros H S a s b b' HA [HN HI]. split; auto. pose proof (live_lt _ _ (holds_live _ _ _ _ HA)) as HL.
  intros x. rewrite HI. destruct (Nat.eq_dec x a) as [->|E].
  - split; intros _; [exists s, b'; unfold holds; rewrite upd_same; auto | eapply holds_live; eauto].
  - split; intros (s' & c & HC); exists s', c; unfold holds in *; rewrite upd_other in *; auto.
Qed.

Lemma in_use_free : forall H S a, in_use H (a :: S) -> in_use (upd H a Dead) S.
Proof.
  intros H S a [HN HI]. inversion HN; subst. split; auto.
  assert (HL : live H a) by (apply HI; left; auto). pose proof (live_lt _ _ HL).
  intros x. destruct (Nat.eq_dec x a) as [->|E].
  - split; [tauto|]. intros (s' & c & HC). unfold holds in HC. rewrite upd_same in HC by auto. discriminate.
  - split.
    + intros HX. destruct (proj1 (HI x) (or_intror HX)) as (s' & c & HC). exists s', c. unfold holds in *. rewrite upd_other; auto.
    + intros (s' & c & HC). unfold holds in HC. rewrite upd_other in HC by auto. destruct (proj2 (HI x)) as [HX|HX]; [exists s', c; auto|congruence|auto].
Qed.

Lemma untouched_refl : forall H S, untouched H H S.
Proof. intros H S a _. auto. Qed.

Lemma untouched_trans : forall H1 H2 H3 S, untouched H1 H2 S -> untouched H2 H3 S -> untouched H1 H3 S.
Proof. intros H1 H2 H3 S A B a HA. rewrite (B a HA). auto. Qed.

Lemma untouched_incl : forall H H' S S', untouched H H' S -> incl S' S -> untouched H H' S'.
Proof. intros H H' S S' A B a HA. apply A. auto. Qed.

Lemma untouched_app : forall H H' S S', untouched H H' (S ++ S') <-> untouched H H' S /\ untouched H H' S'.
Proof.
  intros. unfold untouched. split; [intros A; split; intros; apply A; apply in_or_app; auto|].
  intros [A B] a HA. apply in_app_or in HA. destruct HA; auto.
Qed.

Lemma untouched_alloc : forall H S s b, in_use H S -> untouched H (H ++ [Live s b]) S.
Proof. intros H S s b [_ HI] a HA. apply HI in HA. apply live_lt in HA. rewrite nth_error_app1; auto. Qed.

Lemma untouched_upd : forall H S a v, ~ In a S -> untouched H (upd H a v) S.
Proof. intros H S a v HA x HX. apply upd_other. intros ->. auto. Qed.

Lemma holds_untouched : forall H H' S a s b, untouched H H' S -> In a S -> holds H a s b -> holds H' a s b.
Proof. intros. unfold holds. rewrite H0; auto. Qed.

(** ** Sequencing *)

Lemma runs_step : forall A B C H R (m : M A) (k : A -> M B) x (o : out C) Q,
  m H = MRet x H -> runs H R (k x) o Q -> runs H R (mbind m k) o Q.
Proof. intros. unfold runs, mbind in *. rewrite H0. auto. Qed.

Lemma runs_bind : forall A B C D H R (m : M A) (k : A -> M B) (o : out C) (ko : C -> out D) Q Q',
  runs H R m o Q ->
  (forall y x H' T, o = Ret y -> in_use H' (T ++ R) -> untouched H H' R -> Q y x H' T -> runs H' R (k x) (ko y) Q') ->
  runs H R (mbind m k) (bind o ko) Q'.
Proof.
  intros A B C D H R m k o ko Q Q' HM HK. destruct o as [y|c]; cbn [bind].
  - destruct HM as (x & H' & T & E & HU & HT & HQ). specialize (HK y x H' T eq_refl HU HT HQ).
    unfold runs in *. destruct (ko y) as [z|c].
    + destruct HK as (x' & H'' & T' & E' & HU' & HT' & HQ'). exists x', H'', T'. unfold mbind. rewrite E. split; [auto|]. split; [auto|]. split; auto. eapply untouched_trans; eauto.
    + unfold mbind. rewrite E. auto.
  - unfold runs in *. unfold mbind. rewrite HM. auto.
Qed.

Lemma runs_then : forall A B C D H R (m : M A) (k : A -> M B) (y : C) (o : out D) Q Q',
  runs H R m (Ret y) Q ->
  (forall x H' T, in_use H' (T ++ R) -> untouched H H' R -> Q y x H' T -> runs H' R (k x) o Q') ->
  runs H R (mbind m k) o Q'.
Proof.
  intros A B C D H R m k y o Q Q' HM HK. change o with (bind (Ret y) (fun _ => o)). eapply runs_bind; eauto.
  intros y' x H' T E. apply ret_inj in E. subst y'. eauto.
Qed.

Lemma runs_lift : forall A B C H R (o : out A) (k : A -> M B) (ko : A -> out C) Q,
  (forall x, o = Ret x -> runs H R (k x) (ko x) Q) -> runs H R (mbind (lift o) k) (bind o ko) Q.
Proof. intros. destruct o as [x|c]; cbn [bind]; [specialize (H0 x eq_refl); unfold runs, mbind, lift in *; auto | unfold runs, mbind, lift; auto]. Qed.

Lemma runs_ret : forall A B H R (x : A) (y : B) T (Q : B -> A -> heap -> list addr -> Prop),
  in_use H (T ++ R) -> Q y x H T -> runs H R (ret x) (Ret y) Q.
Proof. intros. exists x, H, T. split; [reflexivity|]. split; auto. split; auto. apply untouched_refl. Qed.

Lemma runs_mono : forall A B H R (m : M A) (o : out B) (Q Q' : B -> A -> heap -> list addr -> Prop),
  runs H R m o Q -> (forall y x H' T, in_use H' (T ++ R) -> untouched H H' R -> Q y x H' T -> Q' y x H' T) -> runs H R m o Q'.
Proof.
  intros A B H R m o Q Q' HM HQ. destruct o as [y|c]; auto. destruct HM as (x & H' & T & E & HU & HT & HP).
  exists x, H', T. auto.
Qed.

Lemma runs_perm : forall A B H R R' (m : M A) (o : out B) Q,
  runs H R m o Q -> Permutation R R' -> runs H R' m o Q.
Proof.
  intros A B H R R' m o Q HM HP. destruct o as [y|c]; auto. destruct HM as (x & H' & T & E & HU & HT & HQ).
  exists x, H', T. split; [auto|]. split; [eapply in_use_perm; [eauto|apply Permutation_app_head; auto]|]. split; auto.
  eapply untouched_incl; eauto. intros a HA. eapply Permutation_in; [symmetry|]; eauto.
Qed.

(** What the operation does not own stays as it is. *)
Lemma runs_frame : forall A B H S R (m : M A) (o : out B) Q,
  runs H (S ++ R) m o Q ->
  runs H R m o (fun y x H' T => exists T', T = T' ++ S /\ Q y x H' T' /\ untouched H H' S).
Proof.
  intros A B H S R m o Q HM. destruct o as [y|c]; auto. destruct HM as (x & H' & T & E & HU & HT & HQ).
  apply untouched_app in HT. destruct HT as [HS HR]. exists x, H', (T ++ S). split; [auto|]. rewrite <- app_assoc. split; [auto|]. split; auto.
  exists T. auto.
Qed.

(** ** Primitives *)

Lemma runs_alloc : forall H R b, in_use H R ->
  runs H R (alloc b) (Ret tt) (fun _ a H' T => T = [a] /\ holds H' a false b).
Proof.
  intros H R b HU. exists (length H), (H ++ [Live false b]), [length H]. split; [reflexivity|].
  split; [apply in_use_alloc; auto|]. split; [apply untouched_alloc; auto|]. split; auto.
  unfold holds. rewrite nth_error_app2 by lia. rewrite Nat.sub_diag. reflexivity.
Qed.

Lemma runs_place : forall H R b, in_use H R ->
  runs H R (place b) (Ret tt) (fun _ a H' T => T = [a] /\ holds H' a true b).
Proof.
  intros H R b HU. exists (length H), (H ++ [Live true b]), [length H]. split; [reflexivity|].
  split; [apply in_use_alloc; auto|]. split; [apply untouched_alloc; auto|]. split; auto.
  unfold holds. rewrite nth_error_app2 by lia. rewrite Nat.sub_diag. reflexivity.
Qed.

Lemma runs_write : forall H T R a s b b', in_use H (T ++ R) -> In a T -> holds H a s b ->
  runs H R (write a b') (Ret tt)
    (fun _ _ H' T' => T' = T /\ holds H' a s b' /\ (forall x, x <> a -> nth_error H' x = nth_error H x)).
Proof.
  intros H T R a s b b' HU HA HH. pose proof (live_lt _ _ (holds_live _ _ _ _ HH)) as HL.
  exists tt, (upd H a (Live s b')), T. split; [unfold write; rewrite HH; reflexivity|].
  split; [eapply in_use_write; eauto|]. split.
  - apply untouched_upd. intros HR. destruct HU as [HN _]. revert HA HR HN. clear. induction T as [|y T IH]; [cbn; tauto|].
    intros [->|HA] HR HN; cbn in HN; inversion HN; subst; [apply H1; apply in_or_app; auto | eauto].
  - split; auto. split; [unfold holds; rewrite upd_same; auto|]. intros x HX. apply upd_other. auto.
Qed.

Lemma runs_free : forall H T R a b, in_use H (a :: T ++ R) -> holds H a false b ->
  runs H R (free (Some a)) (Ret tt)
    (fun _ _ H' T' => T' = T /\ untouched H H' T).
Proof.
  intros H T R a b HU HH. exists tt, (upd H a Dead), T. split; [unfold free; rewrite HH; reflexivity|].
  split; [apply in_use_free; auto|]. destruct HU as [HN _]. inversion HN; subst.
  assert (~ In a T /\ ~ In a R) as [HT HR] by (split; intros HC; apply H2; apply in_or_app; auto).
  split; [apply untouched_upd; auto|]. split; auto. apply untouched_upd. auto.
Qed.

Lemma runs_free_opt : forall H T R p, in_use H (the p ++ T ++ R) -> (forall a, p = Some a -> exists b, holds H a false b) ->
  runs H R (free p) (Ret tt) (fun _ _ H' T' => T' = T /\ untouched H H' T).
Proof.
  intros H T R [a|] HU HM; cbn [the app] in *.
  - destruct (HM a eq_refl) as [b HB]. eapply runs_free; eauto.
  - exists tt, H, T. split; [reflexivity|]. split; auto. split; [apply untouched_refl|]. split; auto. apply untouched_refl.
Qed.

Lemma read_eq : forall H a s b, holds H a s b -> read a H = MRet b H.
Proof. intros. unfold read. rewrite H0. auto. Qed.

Lemma read_buf_eq : forall H a s b, holds H a s (BBuf b) -> read_buf a H = MRet b H.
Proof. intros. unfold read_buf, mbind. erewrite read_eq by eauto. reflexivity. Qed.
Lemma read_str_eq : forall H a s b, holds H a s (BStr b) -> read_str a H = MRet b H.
Proof. intros. unfold read_str, mbind. erewrite read_eq by eauto. reflexivity. Qed.
Lemma read_fields_eq : forall H a s b, holds H a s (BFields b) -> read_fields a H = MRet b H.
Proof. intros. unfold read_fields, mbind. erewrite read_eq by eauto. reflexivity. Qed.
Lemma read_hdr_eq : forall H a s b, holds H a s (BHdr b) -> read_hdr a H = MRet b H.
Proof. intros. unfold read_hdr, mbind. erewrite read_eq by eauto. reflexivity. Qed.
Lemma read_frame_eq : forall H a s b, holds H a s (BFrame b) -> read_frame a H = MRet b H.
Proof. intros. unfold read_frame, mbind. erewrite read_eq by eauto. reflexivity. Qed.

(** ** Structures do not depend on the rest of the memory *)

Lemma is_buf_stable : forall H H' p v, is_buf H p v -> untouched H H' (the p) -> is_buf H' p v.
Proof. intros H H' [a|] [b|] HB HU; cbn in *; auto. eapply holds_untouched; eauto. left; auto. Qed.

Lemma is_str_stable : forall H H' p v, is_str H p v -> untouched H H' (the p) -> is_str H' p v.
Proof. intros H H' [a|] [b|] HB HU; cbn in *; auto. eapply holds_untouched; eauto. left; auto. Qed.

Lemma is_field_stable : forall H H' c f, is_field H c f -> untouched H H' (owned c) -> is_field H' c f.
Proof.
  intros H H' c f (A & B & C & D & E & F & G) HU. apply untouched_app in HU. destruct HU.
  repeat (split; [solve [auto]|]). split; eapply is_buf_stable; eauto.
Qed.

Lemma fields_stable : forall H H' l fs, Forall2 (is_field H) l fs -> untouched H H' (flat_map owned l) -> Forall2 (is_field H') l fs.
Proof.
  intros H H' l fs HF. induction HF; intros HU; constructor; cbn [flat_map] in HU; apply untouched_app in HU; destruct HU; auto.
  eapply is_field_stable; eauto.
Qed.

Lemma is_hdr_stable : forall s H H' a h S, is_hdr s H a h S -> untouched H H' S -> is_hdr s H' a h S.
Proof.
  intros s H H' a h S (m & HA & E1 & E2 & E3 & E4 & E5 & HF) HU. exists m.
  destruct (mh_fields m) as [fa|] eqn:EF.
  - destruct HF as (l & HN & HL & HF & ->). 
    split; [eapply holds_untouched; eauto; left; auto|]. repeat (split; [solve [auto]|]).
    exists l. split; auto. split; [eapply holds_untouched; eauto; right; left; auto|]. split; auto.
    eapply fields_stable; eauto. eapply untouched_incl; eauto. intros x HX. right. right. auto.
  - destruct HF as [EN ->]. split; [eapply holds_untouched; eauto; left; auto|]. repeat (split; [solve [auto]|]). auto.
Qed.

Lemma are_hdrs_stable : forall s H H' l hs S, are_hdrs s H l hs S -> untouched H H' S -> are_hdrs s H' l hs S.
Proof.
  intros s H H' l hs S HA. induction HA; intros HU; constructor; apply untouched_app in HU; destruct HU; auto.
  eapply is_hdr_stable; eauto.
Qed.

Lemma is_frame_stable : forall H H' a f S, is_frame H a f S -> untouched H H' S -> is_frame H' a f S.
Proof.
  intros H H' a f S (l & S' & HA & HS & ->) HU. exists l, S'. split; [eapply holds_untouched; eauto; left; auto|]. split; auto.
  eapply are_hdrs_stable; eauto. eapply untouched_incl; eauto. intros x HX. right. auto.
Qed.

Lemma is_cmd_stable : forall H H' m c S, is_cmd H m c S -> untouched H H' S -> is_cmd H' m c S.
Proof.
  intros H H' m c S (E1 & E2 & E3 & HN & HA & HB & HM & SF & HF & ->) HU.
  rewrite !untouched_app in HU. destruct HU as (U1 & U2 & U3 & U4 & U5).
  repeat (split; [solve [auto]|]). split; [eapply is_str_stable; eauto|]. split; [eapply is_str_stable; eauto|].
  split; [eapply is_buf_stable; eauto|]. split; [eapply is_buf_stable; eauto|]. exists SF. split; auto.
  destruct (mc_frame m), (c_frame c); cbn in *; auto. eapply is_frame_stable; eauto.
Qed.

Lemma are_cmds_stable : forall H H' l cs S, are_cmds H l cs S -> untouched H H' S -> are_cmds H' l cs S.
Proof.
  intros H H' l cs S HA. induction HA; intros HU; constructor; apply untouched_app in HU; destruct HU; auto.
  eapply is_cmd_stable; eauto.
Qed.

(** ** Reading a structure *)

Lemma get_buf_eq : forall H p v, is_buf H p v -> m_get_buf p H = MRet v H.
Proof. intros H [a|] [b|] HB; cbn in *; try tauto. unfold mbind. erewrite read_buf_eq by eauto. reflexivity. Qed.

Lemma get_field_eq : forall H c f, is_field H c f -> m_get_field c H = MRet f H.
Proof.
  intros H c f (A & B & C & D & E & F & G). unfold m_get_field, mbind. erewrite get_buf_eq by eauto. erewrite get_buf_eq by eauto.
  unfold ret. f_equal. destruct f; cbn in *; congruence.
Qed.

Lemma get_fields_eq : forall H l fs, Forall2 (is_field H) l fs -> m_get_fields l H = MRet fs H.
Proof.
  intros H l fs HF. induction HF as [|c f l fs HC HF IH]; cbn [m_get_fields]; [reflexivity|]. unfold mbind. erewrite get_field_eq by eauto. rewrite IH. reflexivity.
Qed.

Lemma get_hdr_eq : forall s H a h S, is_hdr s H a h S -> m_get_hdr a H = MRet h H.
Proof.
  intros s H a h S (m & HA & E1 & E2 & E3 & E4 & E5 & HF). unfold m_get_hdr, mbind. erewrite read_hdr_eq by eauto.
  destruct (mh_fields m) as [fa|].
  - destruct HF as (l & HN & HL & HF & ->). erewrite read_fields_eq by eauto. erewrite get_fields_eq by eauto. unfold ret. f_equal. destruct h; cbn in *; congruence.
  - destruct HF as [EN ->]. cbn [m_get_fields]. unfold ret. f_equal. destruct h; cbn in *; congruence.
Qed.

Lemma get_stack_eq : forall s H l hs S, are_hdrs s H l hs S -> m_get_stack l H = MRet hs H.
Proof.
  intros s H l hs S HA. induction HA; cbn [m_get_stack]; [reflexivity|]. unfold mbind. erewrite get_hdr_eq by eauto. rewrite IHHA. reflexivity.
Qed.

Lemma get_frame_eq : forall H a f S, is_frame H a f S -> m_get_frame a H = MRet f H.
Proof.
  intros H a f S (l & S' & HA & HS & ->). unfold m_get_frame, mbind. erewrite read_frame_eq by eauto. cbn [mr_stack]. erewrite get_stack_eq by eauto.
  unfold ret. destruct f; reflexivity.
Qed.

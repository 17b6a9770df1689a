(** Proofs about the processes that come of a program whose captures cannot be executed
    (C89). *)

From Verif Require Import BaseFacts SpecForest PMain.

Section Forest.
Context (fk : forkings).

Notation who_of := (fun p : list nat * list capture * list action => fst (fst p)).

(** The ways in which [who] may still multiply, from capture [i] on. *)
Inductive grows (n : nat) : list nat -> nat -> list nat -> Prop :=
| g_end : forall who i, grows n who i []
| g_child : forall who i k p ext, (i <= k < n)%nat -> fk who k = Worked p false -> grows n (who ++ [k]) (S k) ext -> grows n who i (k :: ext).

Lemma grows_ge : forall n who i ext, grows n who i ext -> forall j, In j ext -> (i <= j < n)%nat.
Proof.
  intros n who i ext H. induction H as [|who i k p ext Hk Hf Hg IH]; intros j Hj; [destruct Hj|].
  destruct Hj as [<-|Hj]; [exact Hk|]. specialize (IH _ Hj). lia.
Qed.

Lemma grows_earlier : forall n who i j ext, grows n who j ext -> (i <= j)%nat -> grows n who i ext.
Proof. intros n who i j ext H Hj. destruct H; [apply g_end|]. eapply g_child; eauto. lia. Qed.

Lemma grows_later : forall n who i ext, grows n who i ext -> (forall p, fk who i <> Worked p false) -> grows n who (S i) ext.
Proof.
  intros n who i ext H Hn. destruct H as [|who i k p ext Hk Hf Hg]; [apply g_end|]. assert (k <> i) by (intros ->; exact (Hn p Hf)).
  apply (g_child _ _ _ _ p); auto. lia.
Qed.

Lemma grows_case : forall n who i ext, grows n who i ext -> grows n who (S i) ext \/ exists p e, (i < n)%nat /\ fk who i = Worked p false /\ ext = i :: e /\ grows n (who ++ [i]) (S i) e.
Proof.
  intros n who i ext H. destruct H as [|who i k p ext Hk Hf Hg]; [left; apply g_end|].
  destruct (Nat.eq_dec k i) as [->|Hne]; [right; exists p, ext; repeat (split; [solve [auto; lia]|]); auto|]. left. apply (g_child _ _ _ _ p); auto. lia.
Qed.

Lemma launch_who : forall todo who i done acts w,
  In w (map who_of (launch fk who i done todo acts)) <-> exists ext, w = who ++ ext /\ grows (i + length todo) who i ext.
Proof.
  induction todo as [|c todo IH]; intros who i done acts w; cbn [launch length].
  - cbn. split.
    + intros [<-|[]]. exists []. rewrite app_nil_r. split; [reflexivity|apply g_end].
    + intros (ext & -> & G). destruct ext as [|k ext]; [left; rewrite app_nil_r; reflexivity|]. pose proof (grows_ge _ _ _ _ G k (or_introl eq_refl)). lia.
  - replace (i + S (length todo))%nat with (S i + length todo)%nat by lia. destruct (fk who i) as [|p b] eqn:Ef; [|destruct b].
    + rewrite IH. split; intros (ext & -> & G); exists ext; split; auto; [eapply grows_earlier; eauto|apply grows_later; auto; intros q; rewrite Ef; discriminate].
    + rewrite IH. split; intros (ext & -> & G); exists ext; split; auto; [eapply grows_earlier; eauto|apply grows_later; auto; intros q; rewrite Ef; discriminate].
    + rewrite map_app, in_app_iff, !IH. split.
      * intros [(ext & -> & G)|(ext & -> & G)]; [exists ext; split; [reflexivity|eapply grows_earlier; eauto]|].
        exists (i :: ext). split; [rewrite <- app_assoc; reflexivity|]. apply (g_child _ _ _ _ p); auto. lia.
      * intros (ext & -> & G). destruct (grows_case _ _ _ _ G) as [G'|(q & e & Hi & Hf & -> & G')]; [left; exists ext; auto|].
        right. exists e. split; [rewrite <- app_assoc; reflexivity|exact G'].
Qed.

Lemma NoDup_app_of {A} (a b : list A) : NoDup a -> NoDup b -> (forall x, In x a -> In x b -> False) -> NoDup (a ++ b).
Proof.
  intros Ha Hb H. induction Ha as [|x a Hx Ha IH]; [exact Hb|]. cbn [app]. constructor; [|apply IH; intros y Hy Hy'; exact (H y (or_intror Hy) Hy')].
  rewrite in_app_iff. intros [H1|H1]; [exact (Hx H1)|exact (H x (or_introl eq_refl) H1)].
Qed.

Lemma launch_once : forall todo who i done acts, NoDup (map who_of (launch fk who i done todo acts)).
Proof.
  induction todo as [|c todo IH]; intros who i done acts; cbn [launch].
  - cbn. constructor; [intros []|constructor].
  - destruct (fk who i) as [|p b] eqn:Ef; [apply IH|]. destruct b; [apply IH|]. rewrite map_app. apply NoDup_app_of; [apply IH|apply IH|].
    intros w H1 H2. rewrite launch_who in H1, H2. destruct H1 as (e1 & -> & G1), H2 as (e2 & E & G2). rewrite <- app_assoc in E. apply app_inv_head in E. subst e1.
    pose proof (grows_ge _ _ _ _ G1 i (or_introl eq_refl)). lia.
Qed.

(** Chains of children, read from the other end. *)
Lemma grows_snoc : forall n who i ext k p, grows n who i ext -> (i <= k < n)%nat -> (forall j, In j ext -> (j < k)%nat) -> fk (who ++ ext) k = Worked p false -> grows n who i (ext ++ [k]).
Proof.
  intros n who i ext k p G. induction G as [who i|who i j q ext Hj Hf G IH]; intros Hk Hl Hp.
  - rewrite app_nil_r in Hp. cbn [app]. apply (g_child _ _ _ _ p); auto. apply g_end.
  - cbn [app]. apply (g_child _ _ _ _ q); auto. apply IH; [|intros x Hx; apply Hl; right; exact Hx|rewrite <- app_assoc; exact Hp].
    specialize (Hl j (or_introl eq_refl)). lia.
Qed.

Lemma grows_process : forall n ext who i, process fk n who -> (forall j, In j who -> (j < i)%nat) -> grows n who i ext -> process fk n (who ++ ext).
Proof.
  intros n ext. induction ext as [|k ext IH]; intros who i Hp Hl G; [rewrite app_nil_r; exact Hp|].
  inversion G as [|? ? ? p ? Hk Hf G']; subst. replace (who ++ k :: ext) with ((who ++ [k]) ++ ext) by (rewrite <- app_assoc; reflexivity).
  apply (IH _ (S k)); [apply (pr_child _ _ _ _ p); auto; [lia|]| |exact G'].
  - intros j Hj. specialize (Hl j Hj). lia.
  - intros j Hj. apply in_app_or in Hj. destruct Hj as [Hj|[<-|[]]]; [specialize (Hl j Hj); lia|lia].
Qed.

Lemma process_grows : forall n who, process fk n who <-> grows n [] 0 who.
Proof.
  intros n who. split.
  - intros H. induction H as [|who i p H IH Hi Hl Hf]; [apply g_end|]. apply (grows_snoc _ _ _ _ _ p); auto. lia.
  - intros G. apply (grows_process n who [] 0); auto; [constructor|intros j []].
Qed.

Lemma launch_processes : forall caps acts w, In w (map who_of (launch fk [] 0 [] caps acts)) <-> process fk (length caps) w.
Proof.
  intros caps acts w. rewrite launch_who, process_grows. cbn [app Nat.add]. split; [intros (ext & -> & G); exact G|intros G; exists w; auto].
Qed.

(** All fail. *)
Lemma launch_double : (forall who i, exists p, fk who i = Worked p false) -> forall todo who i done acts, length (launch fk who i done todo acts) = (2 ^ length todo)%nat.
Proof.
  intros H. induction todo as [|c todo IH]; intros who i done acts; cbn [launch length]; [reflexivity|].
  destruct (H who i) as [p ->]. rewrite app_length, !IH. cbn [Nat.pow]. lia.
Qed.

(** None fails. *)
Definition result (f : forking) : Z := match f with Worked p _ => Zpos p | Failed => -1 end.

Lemma launch_single : forall todo i done acts, (forall k p, (i <= k)%nat -> fk [] k <> Worked p false) ->
  launch fk [] i done todo acts =
  [([], done ++ capture_all_start (map (fun k => result (fk [] k)) (seq i (length todo))) todo,
    acts ++ flat_map (fun x => match fk [] (fst x) with Worked p _ => [Start (cap_cmd (snd x)) (Zpos p)] | Failed => [] end) (combine (seq i (length todo)) todo))].
Proof.
  induction todo as [|c todo IH]; intros i done acts H; cbn [launch length seq map capture_all_start combine flat_map fst snd].
  - rewrite !app_nil_r. reflexivity.
  - destruct (fk [] i) as [|p b] eqn:Ef; [|destruct b].
    + rewrite IH by (intros; apply H; lia). cbn [result app]. rewrite <- app_assoc. reflexivity.
    + rewrite IH by (intros; apply H; lia). cbn [result app]. rewrite <- !app_assoc. reflexivity.
    + exfalso. exact (H i p (le_n i) Ef).
Qed.

(** What a process believes of the captures. *)
Lemma filter_all {A} (f : A -> bool) (l : list A) : (forall x, In x l -> f x = true) -> filter f l = l.
Proof. intros H. induction l as [|x l IH]; [reflexivity|]. cbn [filter]. rewrite (H x (or_introl eq_refl)), IH; [reflexivity|intros y Hy; apply H; right; exact Hy]. Qed.
Lemma filter_none {A} (f : A -> bool) (l : list A) : (forall x, In x l -> f x = false) -> filter f l = [].
Proof. intros H. induction l as [|x l IH]; [reflexivity|]. cbn [filter]. rewrite (H x (or_introl eq_refl)). apply IH. intros y Hy. apply H. right. exact Hy. Qed.

Lemma back_to : forall n who i ext, (forall j, In j who -> (j < i)%nat) -> grows n who i ext -> back_then (who ++ ext) i = who.
Proof.
  intros n who i ext Hl G. unfold back_then. rewrite filter_app. rewrite (filter_all _ who), (filter_none _ ext); [apply app_nil_r| |].
  - intros j Hj. pose proof (grows_ge _ _ _ _ G j Hj). lia.
  - intros j Hj. specialize (Hl j Hj). lia.
Qed.

Definition known (w : list nat) (j : nat) (c : capture) : capture :=
  if existsb (Nat.eqb j) w then c else capture_start (result (fk (back_then w j) j)) c.

Lemma known_not : forall n who i ext c, (forall j, In j who -> (j < i)%nat) -> grows n who (S i) ext -> known (who ++ ext) i c = capture_start (result (fk who i)) c.
Proof.
  intros n who i ext c Hl G. unfold known. rewrite (back_to n) by (auto; eapply grows_earlier; eauto).
  destruct (existsb (Nat.eqb i) (who ++ ext)) eqn:E; [|reflexivity]. exfalso. apply existsb_exists in E. destruct E as (j & Hj & Ej). apply Nat.eqb_eq in Ej. subst j.
  apply in_app_or in Hj. destruct Hj as [Hj|Hj]; [specialize (Hl i Hj); lia|]. pose proof (grows_ge _ _ _ _ G i Hj). lia.
Qed.

Lemma launch_known : forall todo who i done acts w cps acts', (forall j, In j who -> (j < i)%nat) ->
  In (w, cps, acts') (launch fk who i done todo acts) -> cps = done ++ map (fun x => known w (fst x) (snd x)) (combine (seq i (length todo)) todo).
Proof.
  assert (W : forall todo who i done acts w cps acts', In (w, cps, acts') (launch fk who i done todo acts) -> exists ext, w = who ++ ext /\ grows (i + length todo) who i ext).
  { intros. eapply launch_who. exact (in_map who_of _ _ H). }
  induction todo as [|c todo IH]; intros who i done acts w cps acts' Hl H; cbn [launch length seq combine map fst snd] in *.
  - destruct H as [H|[]]. apply pair_inj in H. destruct H as [H _]. apply pair_inj in H. destruct H as [_ <-]. rewrite app_nil_r. reflexivity.
  - assert (Hl' : forall j, In j who -> (j < S i)%nat) by (intros j Hj; specialize (Hl j Hj); lia).
    destruct (fk who i) as [|p b] eqn:Ef; [|destruct b].
    + pose proof (W _ _ _ _ _ _ _ _ H) as (ext & E & G). apply IH in H; auto. rewrite H, <- app_assoc. cbn [app]. do 2 f_equal. rewrite E, (known_not _ _ _ _ _ Hl G), Ef. reflexivity.
    + pose proof (W _ _ _ _ _ _ _ _ H) as (ext & E & G). apply IH in H; auto. rewrite H, <- app_assoc. cbn [app]. do 2 f_equal. rewrite E, (known_not _ _ _ _ _ Hl G), Ef. reflexivity.
    + apply in_app_or in H. destruct H as [H|H].
      * pose proof (W _ _ _ _ _ _ _ _ H) as (ext & E & G). apply IH in H; auto. rewrite H, <- app_assoc. cbn [app]. do 2 f_equal. rewrite E, (known_not _ _ _ _ _ Hl G), Ef. reflexivity.
      * pose proof (W _ _ _ _ _ _ _ _ H) as (ext & E & G). apply IH in H; [|intros j Hj; apply in_app_or in Hj; destruct Hj as [Hj|[<-|[]]]; [auto|lia]]. rewrite H, <- app_assoc. cbn [app]. do 2 f_equal.
        unfold known. replace (existsb (Nat.eqb i) w) with true; [reflexivity|]. symmetry. apply existsb_exists. exists i. split; [|apply Nat.eqb_refl]. rewrite E, !in_app_iff. left. right. left. reflexivity.
Qed.
End Forest.

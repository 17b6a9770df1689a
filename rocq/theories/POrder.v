(** Proofs about the order of the commands of a test (C97). *)

From Coq Require Import Permutation.
From Verif Require Import BaseFacts SpecOrder PTest3 PTogether2.
From Verif Require PPair.

Lemma meaning_in : forall T n ws, meaning T n = Some ws -> In (Define n ws) T.
Proof.
  induction T as [|x T IH]; intros n ws H; [discriminate H|]. destruct x as [i rep s|i s|i|m w]; cbn [meaning] in H; try (right; apply IH; exact H). destruct (String.eqb_spec m n) as [->|N]; [left; congruence|right; apply IH; exact H].
Qed.
Lemma in_defines : forall T n ws, In (Define n ws) T -> In n (defined_names T).
Proof. intros T n ws H. apply in_flat_map. eexists. split; [exact H|left; reflexivity]. Qed.
Lemma in_meaning : forall T n ws, NoDup (defined_names T) -> In (Define n ws) T -> meaning T n = Some ws.
Proof.
  induction T as [|x T IH]; intros n ws ND H; [destruct H|]. destruct H as [->|H].
  - cbn [meaning]. rewrite String.eqb_refl. reflexivity.
  - destruct x as [i rep s|i s|i|m w]; cbn [meaning]; try (apply IH; [exact ND|exact H]). unfold defined_names in ND. cbn [flat_map app] in ND. inversion ND as [|y l N1 N2]. subst. destruct (String.eqb_spec m n) as [->|N]; [|apply IH; auto]. destruct N1. apply (in_defines _ _ _ H).
Qed.
Lemma defines_perm : forall T T', Permutation T T' -> Permutation (defined_names T) (defined_names T').
Proof. intros T T' P. apply Permutation_flat_map. exact P. Qed.
Lemma meaning_perm : forall T T' n, Permutation T T' -> NoDup (defined_names T) -> meaning T n = meaning T' n.
Proof.
  intros T T' n P ND. pose proof (Permutation_NoDup (defines_perm _ _ P) ND) as ND'. destruct (meaning T n) as [ws|] eqn:E.
  - symmetry. apply in_meaning; [exact ND'|]. eapply Permutation_in; [exact P|]. apply meaning_in. exact E.
  - destruct (meaning T' n) as [ws|] eqn:E'; [|reflexivity]. apply meaning_in in E'. apply (Permutation_in _ (Permutation_sym P)) in E'. rewrite (in_meaning _ _ _ ND E') in E. discriminate E.
Qed.

Lemma expect_perm : forall T T' ifn, Permutation T T' -> (forall n, meaning T n = meaning T' n) -> Permutation (to_expect ifn T) (to_expect ifn T').
Proof.
  intros T T' ifn P ND. unfold to_expect. etransitivity; [apply Permutation_flat_map; exact P|]. apply Permutation_refl'. apply flat_map_ext. intros x. destruct x as [i rep s|i s|i|m w]; try reflexivity. destruct (String.eqb i ifn); [|reflexivity]. destruct s as [v|n]; [reflexivity|]. cbn [resolved]. rewrite (ND n). reflexivity.
Qed.
Lemma listening_perm : forall T T' ifn, Permutation T T' -> listening ifn T -> listening ifn T'.
Proof. intros T T' ifn P [H|[s H]]; [left|right; exists s]; eapply Permutation_in; eauto. Qed.
Lemma used_listening : forall T ifn, listening ifn T -> In ifn (used T).
Proof. intros T ifn H. apply PPair.distinct_in. apply in_flat_map. destruct H as [H|[s H]]; (eexists; split; [exact H|left; reflexivity]). Qed.

Lemma expected_perm : forall T T' ifn X X', Permutation T T' -> (forall n, meaning T n = meaning T' n) -> Permutation X X' -> as_expected ifn T X -> as_expected ifn T' X'.
Proof.
  intros T T' ifn X X' P ND PX [W [W1 W2]]. destruct (Forall2_perm _ _ _ _ _ W2 X' PX) as [V [V1 V2]]. exists V. split; [|exact V2]. rewrite <- (expect_perm _ _ ifn P ND). etransitivity; eauto.
Qed.

Lemma all_perm : forall T T' tr tr', Permutation T T' -> (forall n, meaning T n = meaning T' n) -> all_read T' tr' -> same_arrivals T T' tr tr' -> all_as_expected T tr -> all_as_expected T' tr'.
Proof.
  intros T T' tr tr' P ND HR HS HA i' ifn HI HL. destruct (HR i' ifn HI HL) as [ix' [since' [B1 B2]]]. pose proof (listening_perm _ _ _ (Permutation_sym P) HL) as HL'. pose proof (used_listening _ _ HL') as HU. apply In_nth_error in HU. destruct HU as [i HU].
  destruct (HA i ifn HU HL') as [ix [since [A1 [_ A3]]]]. exists ix', since'. split; [exact B1|]. split; [exact B2|]. apply (expected_perm T T' ifn (on_wire ix since)); auto. apply (HS ifn i i' ix ix' since since'); auto.
Qed.

Lemma arrivals_sym : forall T T' tr tr', Permutation T T' -> same_arrivals T T' tr tr' -> same_arrivals T' T tr' tr.
Proof. intros T T' tr tr' P H ifn i i' ix ix' since since' HL H1 H2 H3 H4. apply Permutation_sym. apply (H ifn i' i ix' ix since' since); auto. apply (listening_perm _ _ _ (Permutation_sym P) HL). Qed.

Lemma distinguishable_perm : forall T T', Permutation T T' -> (forall n, meaning T n = meaning T' n) -> distinguishable T -> distinguishable T'.
Proof.
  intros T T' P ND H ifn ws ws' rx rx' H1 H2. pose proof (Permutation_sym (expect_perm _ _ ifn P ND)) as Q. apply (H ifn); eapply Permutation_in; eauto.
Qed.

Lemma meanings_free : forall ps ps' T T' sch sch' st st' ev ev' tr tr', Forall part_ok ps -> Forall part_ok ps' -> flat_map operand_of ps = line T -> flat_map operand_of ps' = line T' -> proper T -> proper T' -> Permutation T T' -> (forall n, meaning T n = meaning T' n) -> distinguishable T ->
  Forall fair sch -> Forall fair sch' -> program (flat_map SpecMain.part_words ps) sch = Ret (Some (st, ev, tr)) -> program (flat_map SpecMain.part_words ps') sch' = Ret (Some (st', ev', tr')) ->
  few_read T (net_seen tr) -> few_read T' (net_seen tr') -> ~ trouble (net_seen tr) -> ~ trouble (net_seen tr') -> all_read T (net_seen tr) -> all_read T' (net_seen tr') -> same_arrivals T T' (net_seen tr) (net_seen tr') -> (st = 0 <-> st' = 0).
Proof.
  intros ps ps' T T' sch sch' st st' ev ev' tr tr' P1 P1' O O' HT HT' P ND HD F F' R R' N N' NT NT' A A' SA. pose proof (distinguishable_perm _ _ P ND HD) as HD'. assert (ND' : forall n, meaning T' n = meaning T n) by (intros n; symmetry; apply ND).
  rewrite (words_exactly _ _ _ _ _ _ P1 O HT HD F R N NT A), (words_exactly _ _ _ _ _ _ P1' O' HT' HD' F' R' N' NT' A'). split; intros H; [eapply all_perm; eauto|eapply (all_perm T' T); eauto; [apply Permutation_sym; exact P|apply arrivals_sym; auto]].
Qed.

Lemma order_free : forall ps ps' T T' sch sch' st st' ev ev' tr tr', Forall part_ok ps -> Forall part_ok ps' -> flat_map operand_of ps = line T -> flat_map operand_of ps' = line T' -> proper T -> proper T' -> Permutation T T' -> NoDup (defined_names T) -> distinguishable T ->
  Forall fair sch -> Forall fair sch' -> program (flat_map SpecMain.part_words ps) sch = Ret (Some (st, ev, tr)) -> program (flat_map SpecMain.part_words ps') sch' = Ret (Some (st', ev', tr')) ->
  few_read T (net_seen tr) -> few_read T' (net_seen tr') -> ~ trouble (net_seen tr) -> ~ trouble (net_seen tr') -> all_read T (net_seen tr) -> all_read T' (net_seen tr') -> same_arrivals T T' (net_seen tr) (net_seen tr') -> (st = 0 <-> st' = 0).
Proof.
  intros ps ps' T T' sch sch' st st' ev ev' tr tr' P1 P1' O O' HT HT' P ND. apply (meanings_free ps ps' T T' sch sch' st st' ev ev' tr tr' P1 P1' O O' HT HT' P). intros n. apply meaning_perm; assumption.
Qed.
Lemma one_outcome : forall ps ps' T sch sch' st st' ev ev' tr tr', Forall part_ok ps -> Forall part_ok ps' -> flat_map operand_of ps = line T -> flat_map operand_of ps' = line T -> proper T -> distinguishable T ->
  Forall fair sch -> Forall fair sch' -> program (flat_map SpecMain.part_words ps) sch = Ret (Some (st, ev, tr)) -> program (flat_map SpecMain.part_words ps') sch' = Ret (Some (st', ev', tr')) ->
  few_read T (net_seen tr) -> few_read T (net_seen tr') -> ~ trouble (net_seen tr) -> ~ trouble (net_seen tr') -> all_read T (net_seen tr) -> all_read T (net_seen tr') -> same_arrivals T T (net_seen tr) (net_seen tr') -> (st = 0 <-> st' = 0).
Proof.
  intros ps ps' T sch sch' st st' ev ev' tr tr' P1 P1' O O' HT HD. apply (meanings_free ps ps' T T sch sch' st st' ev ev' tr tr' P1 P1' O O' HT HT (Permutation_refl T) (fun n => eq_refl) HD).
Qed.

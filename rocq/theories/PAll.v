(** Filling and serialising a whole parsed frame. *)

From Verif Require Import PTextIp Frame PSer SpecParse PParse PMatch SpecFrame PFrame PInv PStep PArgs PSoft PFill PGroup.

(** Header [k] of a filled stack: what [run_fill] made of the header as parsed,
    with the headers before it as parsed and those after it as filled. *)
Definition filled_at (stk stk' : list hdr) (k : nat) : Prop :=
  exists t h h', In t hdr_tmpls /\ inv t h /\ nth_error stk k = Some h /\ nth_error stk' k = Some h' /\
    filled t h h' /\
    let mid := firstn (S k) stk ++ skipn (S k) stk' in
    run_fill (h_fill h) mid k = Ret (upd mid k h').

Lemma nth_firstn : forall A (l : list A) i k, (k < i)%nat -> nth_error (firstn i l) k = nth_error l k.
Proof.
  induction l as [|x l IH]; intros [|i] [|k] H; cbn; auto; try lia. apply IH. lia.
Qed.

Lemma nth_skipn : forall A (l : list A) i k, nth_error (skipn i l) k = nth_error l (i + k).
Proof. induction l as [|x l IH]; intros [|i] k; cbn; auto. destruct k; auto. Qed.

Lemma firstn_S_snoc : forall A (l : list A) n x, nth_error l n = Some x -> firstn (S n) l = firstn n l ++ [x].
Proof. induction l as [|y l IH]; intros [|n] x H; cbn in *; try discriminate; [congruence|]. f_equal. apply IH. auto. Qed.

Lemma skipn_cons_nth : forall A (l : list A) n x, nth_error l n = Some x -> skipn n l = x :: skipn (S n) l.
Proof. induction l as [|y l IH]; intros [|n] x H; cbn in *; try discriminate; [congruence|]. apply IH. auto. Qed.

Lemma fill_all_ok : forall a n stk, (n <= length stk)%nat -> Forall parsed (firstn n stk) ->
  Forall (good a) (skipn n stk) -> (a = false -> Forall (fun h => regular h = true) (firstn n stk)) ->
  okp a (fun stk' => length stk' = length stk /\ skipn n stk' = skipn n stk /\
           (forall k, (k < n)%nat -> filled_at stk stk' k)) (fill_all n stk).
Proof.
  intros a. induction n as [|n IH]; intros stk Hn HP HG HR; cbn [fill_all].
  { cbn. repeat split; auto. intros k Hk. lia. }
  destruct (nth_error stk n) as [h|] eqn:Eh; [|apply nth_error_None in Eh; lia].
  rewrite (hget_ok _ _ _ Eh). cbn [bind].
  assert (HPn : Forall parsed (firstn n stk) /\ parsed h).
  { rewrite (firstn_S_snoc _ _ _ _ Eh) in HP. apply Forall_app in HP. destruct HP as [H1 H2]. split; auto. apply Forall_inv in H2. auto. }
  destruct HPn as [HP1 [t [Ht I]]].
  assert (HA : at_pos a stk n t h).
  { constructor; auto.
    - rewrite <- (firstn_skipn (S n) stk). apply Forall_app. split; auto.
      eapply Forall_impl; [|exact HP]. intros x [tx [Hx Ix]]. eapply inv_good; eauto.
    - intros Ea. specialize (HR Ea). rewrite (firstn_S_snoc _ _ _ _ Eh) in HR. apply Forall_app in HR. destruct HR as [_ H2]. apply Forall_inv in H2. auto. }
  pose proof (run_fills a stk n t h HA) as HF. unfold fills in HF.
  destruct (run_fill (h_fill h) stk n) as [stk1|c] eqn:E1; [|exact HF]. cbn [bind okp] in *.
  destruct HF as [h' [-> Hfil]].
  eapply okp_impl; [apply IH|].
  - rewrite upd_length. lia.
  - rewrite firstn_upd_ge by lia. auto.
  - rewrite (skipn_cons_nth _ _ n h').
    2:{ rewrite nth_error_upd, Nat.eqb_refl. replace (n <? length stk)%nat with true by (symmetry; apply Nat.ltb_lt; lia). auto. }
    constructor; [|rewrite skipn_upd_lt by lia; auto].
    split; [apply Hfil|]. intros Ea. apply Hfil. apply (a_reg _ _ _ _ _ HA Ea).
  - intros Ea. rewrite firstn_upd_ge by lia. specialize (HR Ea). rewrite (firstn_S_snoc _ _ _ _ Eh) in HR. apply Forall_app in HR. apply HR.
  - intros stk' [L [Sk K]]. rewrite upd_length in L.
    assert (Hn' : nth_error stk' n = Some h').
    { replace n with (n + 0)%nat at 1 by lia. rewrite <- nth_skipn, Sk, nth_skipn, Nat.add_0_r, nth_error_upd, Nat.eqb_refl.
      replace (n <? length stk)%nat with true by (symmetry; apply Nat.ltb_lt; lia). auto. }
    assert (HS : skipn (S n) stk' = skipn (S n) stk).
    { rewrite (skipn_cons_nth _ _ _ _ Hn') in Sk. rewrite (skipn_cons_nth _ (upd stk n h') n h') in Sk.
      2:{ rewrite nth_error_upd, Nat.eqb_refl. replace (n <? length stk)%nat with true by (symmetry; apply Nat.ltb_lt; lia). auto. }
      apply (f_equal (@tl _)) in Sk. cbn [tl] in Sk. rewrite Sk. apply skipn_upd_lt. lia. }
    split; [auto|split; [auto|]]. intros k Hk.
    destruct (Nat.eq_dec k n) as [->|Hne].
    + exists t, h, h'. split; [auto|split; [auto|split; [auto|split; [auto|split; [auto|]]]]]. cbv zeta. rewrite HS, firstn_skipn. auto.
    + destruct (K k ltac:(lia)) as [t2 [h2 [h2' [A1 [A2 [A3 [A4 [A5 A6]]]]]]]]. exists t2, h2, h2'.
      rewrite nth_error_upd in A3. destruct (Nat.eqb_spec k n); [lia|].
      split; [auto|split; [auto|split; [auto|split; [auto|split; [auto|]]]]]. cbv zeta in *.
      rewrite firstn_upd_ge in A6 by lia. auto.
Qed.

Lemma filled_good : forall a stk stk' k h', filled_at stk stk' k -> (a = false -> forall h, nth_error stk k = Some h -> regular h = true) ->
  nth_error stk' k = Some h' -> good a h'.
Proof.
  intros a stk stk' k h' [t [h [h2 [H1 [H2 [H3 [H4 [H5 _]]]]]]]] HR Hn. assert (h2 = h') by congruence. subst h2.
  split; [apply H5|]. intros Ea. apply H5. auto.
Qed.

Lemma frame_filled : forall a stk, Forall parsed stk -> (a = false -> Forall (fun h => regular h = true) stk) ->
  okp a (fun stk' => length stk' = length stk /\ (forall k, (k < length stk)%nat -> filled_at stk stk' k) /\ Forall (good a) stk')
    (fill_all (length stk) stk).
Proof.
  intros a stk HP HR.
  pose proof (fill_all_ok a (length stk) stk) as H. rewrite firstn_all, skipn_all in H. specialize (H (le_n _) HP ltac:(constructor) HR).
  eapply okp_impl; [exact H|]. intros stk' [L [_ K]]. split; [auto|split; [auto|]].
  apply Forall_forall. intros x Hx. apply In_nth_error in Hx. destruct Hx as [k Hk].
  assert (k < length stk)%nat by (rewrite <- L; apply nth_error_Some; congruence).
  apply (filled_good a stk stk' k x); auto. intros Ea h Hh. specialize (HR Ea). rewrite Forall_forall in HR. apply HR. eapply nth_error_In; eauto.
Qed.

(** Serialising a parsed frame. *)
Lemma frame_to_buf_ok : forall a f, Forall parsed (fr_stack f) -> (a = false -> Forall (fun h => regular h = true) (fr_stack f)) ->
  okp a (fun r => length (fr_stack (fst r)) = length (fr_stack f) /\
          (forall k, (k < length (fr_stack f))%nat -> filled_at (fr_stack f) (fr_stack (fst r)) k) /\
          Forall (good a) (fr_stack (fst r))) (frame_to_buf f).
Proof.
  intros a f HP HR. unfold frame_to_buf. eapply okp_bind; [apply frame_filled; eauto|]. intros stk' [L [K G]].
  eapply okp_bind; [apply (len_from_soft a stk' 0); auto|]. intros n [Hn En].
  eapply okp_bind; [apply (copy_stack_good a); auto; [lia|apply balloc_bytes|rewrite zlen_balloc by lia; cbn [skipn] in En; lia]|].
  intros b _. cbn [okp fst fr_stack]. auto.
Qed.

Lemma filled_fill_all : forall f f' b, frame_to_buf f = Ret (f', b) -> Forall parsed (fr_stack f) ->
  length (fr_stack f') = length (fr_stack f) /\
  (forall k, (k < length (fr_stack f))%nat -> filled_at (fr_stack f) (fr_stack f') k).
Proof.
  intros f f' b H HP. pose proof (frame_to_buf_ok true f HP ltac:(discriminate)) as HF. rewrite H in HF. cbn [okp fst] in HF.
  destruct HF as [H1 [H2 _]]. auto.
Qed.

Lemma wk_well_formed : forall h, wf_hdr false h -> well_formed h.
Proof.
  intros h [H1 H2]. split; auto. intros f Hf. rewrite Forall_forall in H2. destruct (H2 f Hf) as [H3 H4]. split; auto.
  intros v Hv. right. destruct (H4 v) as [K1 [K2 [K3 [K4 K5]]]]; [rewrite field_data_source; auto|].
  split; [unfold within; lia|]. unfold zlen in K3. split; [auto|split; [exact K4|]]. unfold small, zlen in K5. lia.
Qed.

Lemma frame_well_formed : forall f f' b, frame_to_buf f = Ret (f', b) -> Forall parsed (fr_stack f) ->
  Forall (fun h => regular h = true) (fr_stack f) -> Forall well_formed (fr_stack f').
Proof.
  intros f f' b H HP HR. pose proof (frame_to_buf_ok false f HP ltac:(auto)) as HF. rewrite H in HF. cbn [okp fst] in HF.
  destruct HF as [_ [_ HG]]. eapply Forall_impl; [|apply good_wf, HG]. intros h Hh. apply wk_well_formed; auto.
Qed.

(** Memory safety of frame construction, in terms of SpecParse.v. *)

From Verif Require Import PTextIp Frame PSer SpecParse PParse PMatch SpecFrame PFrame PInv PStep PArgs PPrefix PSoft PFill PGroup PAll.

Lemma coap_parms_only : forallb (fun t => forallb (fun f => negb (fp_eqb (f_parser f) FP_coap_parms) ||
    (String.eqb (h_name t) "coap-parms" && String.eqb (f_name f) "par")) (h_fields t)) hdr_tmpls = true.
Proof. vm_compute. reflexivity. Qed.

Lemma in_mid : forall A (x : A) a b, In x (a ++ x :: b).
Proof. intros. apply in_or_app. right. left. auto. Qed.

Lemma parse_frame_crash : forall ws c, argc_frame ws = Crash c ->
  c = Out_of_model \/ (c = OOB_read /\ overlong_word ws) \/ (c = Uninit_ptr /\ missing_parameter ws).
Proof.
  intros ws c H. pose proof (argc_frame_ok ws) as HF. rewrite H in HF.
  destruct HF as [->|[t [A [B [Ht [-> [->|[A' [w [B' [-> [[v [B'' [-> [->|[-> [f [Hf [Hn [Hp [Hw Htl]]]]]]]]]]|[->|[-> [[f [Hf [Hn Hp]]] [n Hd]]]]]]]]]]]]]]]]; auto.
  - right; left. split; auto.
    assert (Hw0 : 0 <= f_width f).
    { destruct (inv_within _ _ _ Ht (inv_init t Ht) Hf) as [_ [K _]]. auto. }
    assert (Hw1 : 1 <= f_width f).
    { destruct (Z.eq_dec (f_width f) 0) as [E|]; [|lia]. rewrite E in Hw. cbn in Hw. lia. }
    rewrite BIT_TO_BYTE_pos in * by lia.
    exists t, f, (A ++ h_name t :: A'), v, B''. split; [auto|split; [auto|]]. split; [rewrite <- app_assoc, Hn; auto|].
    split; [apply in_mid|]. split; [lia|auto].
  - right; right. split; auto.
    pose proof coap_parms_only as HC. rewrite forallb_forall in HC. specialize (HC t Ht). rewrite forallb_forall in HC. specialize (HC f Hf).
    rewrite Hp in HC. cbn [fp_eqb negb orb] in HC. apply andb_true_iff in HC. destruct HC as [H1 H2].
    apply String.eqb_eq in H1. apply String.eqb_eq in H2. subst w.
    exists (A ++ h_name t :: A'), B', n. split; [rewrite <- app_assoc, H2; auto|]. split; auto. rewrite <- H1. apply in_mid.
Qed.

Lemma serialise_crash : forall ws n f c, argc_frame ws = Ret (Some (n, f)) -> frame_to_buf f = Crash c ->
  c = Assert_fail \/ c = Exit_call \/ c = Out_of_model.
Proof.
  intros ws n f c H Hc. pose proof (argc_frame_ok ws) as HF. rewrite H in HF. destruct HF as [_ [_ [_ HP]]].
  pose proof (frame_to_buf_ok true f HP ltac:(discriminate)) as HB. rewrite Hc in HB. destruct HB as [[-> _]|[->| ->]]; auto.
Qed.

Lemma serialise_regular : forall ws n f c, argc_frame ws = Ret (Some (n, f)) -> Forall (fun h => regular h = true) (fr_stack f) ->
  frame_to_buf f = Crash c -> c = Exit_call \/ c = Out_of_model.
Proof.
  intros ws n f c H HR Hc. pose proof (argc_frame_ok ws) as HF. rewrite H in HF. destruct HF as [_ [_ [_ HP]]].
  pose proof (frame_to_buf_ok false f HP ltac:(auto)) as HB. rewrite Hc in HB. destruct HB as [[_ E]|[->| ->]]; auto. discriminate.
Qed.

Lemma mask_crash : forall ws n f f' b c, argc_frame ws = Ret (Some (n, f)) -> frame_to_buf f = Ret (f', b) ->
  frame_mask_to_buf f' = Crash c -> c = Assert_fail \/ c = Out_of_model.
Proof.
  intros ws n f f' b c H Hb Hc. pose proof (argc_frame_ok ws) as HF. rewrite H in HF. destruct HF as [_ [_ [_ HP]]].
  pose proof (frame_to_buf_ok true f HP ltac:(discriminate)) as HB. rewrite Hb in HB. cbn [okp fst] in HB. destruct HB as [_ [_ HG]].
  unfold frame_mask_to_buf in Hc. pose proof (len_from_soft true (fr_stack f') 0 HG) as HL. unfold len_from in *.
  destruct (size_limit <? stack_size (skipn 0 (fr_stack f'))) eqn:El; [cbn in Hc; right; congruence|]. cbn [okp bind] in *. destruct HL as [HL _].
  set (k := stack_size (skipn 0 (fr_stack f'))) in *.
  assert (HM : exists b0, (if k <? 60 then memset_in (balloc (Z.max k 60)) k 255 (zlen (balloc (Z.max k 60)) - k) else Ret (balloc (Z.max k 60))) = Ret b0).
  { destruct (k <? 60) eqn:E; [|eauto]. unfold memset_in. rewrite zlen_balloc by lia.
    replace (Z.max k 60 - k <? 0) with false by lia.
    replace ((k <? 0) || (Z.max k 60 <? k + (Z.max k 60 - k))) with false by lia. eauto. }
  destruct HM as [b0 HM]. rewrite HM in Hc. cbn [bind] in Hc.
  pose proof (copy_stack_soft (fr_stack f') 0 b0 true ltac:(lia) (good_soff _ _ HG)) as HS. rewrite Hc in HS. cbn [okp] in HS.
  destruct HS as [[-> _]|[->| ->]]; auto.
  (* no exit() in the writer *)
  exfalso. clear - Hc. revert Hc. generalize (fr_stack f') as hs. generalize 0 as o. intros o hs. revert o b0.
  induction hs as [|h r IH]; intros o b Hc; cbn [copy_stack] in Hc; [discriminate|].
  destruct (hdr_copy_to_buf_ h o b true) as [b1|c1] eqn:E; cbn [bind] in Hc; [eapply IH; eauto|].
  replace c1 with Exit_call in E by congruence. clear - E. unfold hdr_copy_to_buf_ in E. revert b E.
  induction (h_fields h) as [|f fs IH]; intros b E; cbn [copy_fields] in E; [discriminate|]. destruct (zlen b <? _); [discriminate|].
  destruct (field_source true f) as [v|]; cbn [bind] in E; [|eapply IH; eauto].
  destruct (hdr_write_field b o f v) as [b2|c2] eqn:E2; cbn [bind] in E; [eapply IH; eauto|].
  replace c2 with Exit_call in E2 by congruence. clear - E2. unfold hdr_write_field in E2. destruct (8 * zlen b <? _); [discriminate|].
  revert E2. match goal with |- context [write_bits ?n ?p ?bb ?base ?val ?first] => generalize p; generalize bb; intros bb'; revert bb'; induction n as [|m IHm] end;
    intros bb p E; cbn [write_bits] in E; [discriminate|].
  unfold bit_get at 1 in E. destruct (u64 _ / 8 <? zlen v); [|discriminate]. unfold bget at 1 in E.
  destruct ((0 <=? _) && _); cbn [bind] in E; [|discriminate].
  match type of E with context [bit_set ?x ?y ?z] => destruct (bit_set x y z) as [b3|c3] eqn:E3 end; cbn [bind] in E.
  - eapply IHm; eauto.
  - unfold bit_set in E3. destruct (_ <? _) in E3; [|congruence]. unfold bget in E3. destruct (_ && _) in E3; cbn [bind] in E3; [|congruence].
    unfold bput in E3. destruct (_ && _) in E3; congruence.
Qed.

Lemma crash_not_fuel : forall c ws, (c = Out_of_model \/ (c = OOB_read /\ overlong_word ws) \/ (c = Uninit_ptr /\ missing_parameter ws)) ->
  c = Fuel -> False.
Proof. intros c ws [->|[[-> _]|[-> _]]]; discriminate. Qed.

Lemma crash_not_write : forall c ws, (c = Out_of_model \/ (c = OOB_read /\ overlong_word ws) \/ (c = Uninit_ptr /\ missing_parameter ws)) ->
  c = OOB_write -> False.
Proof. intros c ws [->|[[-> _]|[-> _]]]; discriminate. Qed.

Lemma parse_frame_bounds : forall ws n f, argc_frame ws = Ret (Some (n, f)) ->
  (n <= length ws)%nat /\ (length (fr_stack f) <= n)%nat /\ (length (fr_stack f) <= 100)%nat.
Proof. intros ws n f H. pose proof (argc_frame_ok ws) as HF. rewrite H in HF. intuition. Qed.

Lemma accepted_parsed : forall ws n f, argc_frame ws = Ret (Some (n, f)) -> Forall parsed (fr_stack f).
Proof. intros ws n f H. pose proof (argc_frame_ok ws) as HF. rewrite H in HF. intuition. Qed.

Lemma serialise_not_ub : forall c, c = Assert_fail \/ c = Exit_call \/ c = Out_of_model -> is_ub c = false.
Proof. intros c [->|[->| ->]]; reflexivity. Qed.

Lemma mask_not_ub : forall c, c = Assert_fail \/ c = Out_of_model -> is_ub c = false.
Proof. intros c [->| ->]; reflexivity. Qed.

Lemma accepted_well_formed : forall ws n f f' b, argc_frame ws = Ret (Some (n, f)) ->
  Forall (fun h => regular h = true) (fr_stack f) -> frame_to_buf f = Ret (f', b) -> Forall well_formed (fr_stack f').
Proof. intros ws n f f' b H HR Hb. eapply frame_well_formed; eauto. eapply accepted_parsed; eauto. Qed.

Lemma accepted_length : forall ws n f f' b, argc_frame ws = Ret (Some (n, f)) -> frame_to_buf f = Ret (f', b) ->
  length (fr_stack f') = length (fr_stack f).
Proof. intros ws n f f' b H Hb. eapply filled_fill_all; eauto. eapply accepted_parsed; eauto. Qed.

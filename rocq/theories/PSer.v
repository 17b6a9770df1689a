(** Lemmas about writing headers and stacks of headers into a buffer. *)

From Verif Require Export PBits.

(** What the writer needs of a field inside a header of [size] bytes. *)
Definition wf_src (mask : bool) (size : Z) (f : field) : Prop :=
  0 <= f_width f <= 8 * size /\
  forall v, field_source mask f = Some v ->
    0 <= f_off f /\ f_off f + f_width f <= 8 * size /\ f_width f <= 8 * zlen v /\
    bytes_ok v /\ small v.

(** Enough when the write is known to succeed: fields of width 0 may stand
    anywhere. *)
Definition wk_src (mask : bool) (size : Z) (f : field) : Prop :=
  0 <= f_width f <= 8 * size /\
  forall v, field_source mask f = Some v -> f_width f = 0 \/
    0 <= f_off f /\ f_off f + f_width f <= 8 * size /\ f_width f <= 8 * zlen v /\
    bytes_ok v /\ small v.

Lemma wf_wk : forall mask size f, wf_src mask size f -> wk_src mask size f.
Proof. intros mask size f [H1 H2]. split; auto. Qed.

(** Bit [j] of a header after writing [fs] over a buffer with bit [d] there. *)
Definition field_bit (mask : bool) (j : Z) (d : bool) (f : field) : bool :=
  match field_source mask f with
  | Some v => if (f_off f <=? j) && (j <? f_off f + f_width f)
              then bit_at v (j - f_off f + (8 * zlen v - f_width f)) else d
  | None => d
  end.

Definition hdr_bit (fs : list field) (mask : bool) (j : Z) (d : bool) : bool :=
  fold_left (field_bit mask j) fs d.

Lemma BIT_TO_BYTE_pos : forall w, 1 <= w -> BIT_TO_BYTE w = (w + 7) / 8.
Proof. intros w H. unfold BIT_TO_BYTE. rewrite Z.quot_div_nonneg by lia. lia. Qed.

Lemma BIT_TO_BYTE_ge : forall w, 0 <= w -> w <= 8 * BIT_TO_BYTE w.
Proof.
  intros w H. destruct (Z.eq_dec w 0) as [->|]; [unfold BIT_TO_BYTE; cbn; lia|].
  rewrite BIT_TO_BYTE_pos by lia. lia.
Qed.

Lemma BIT_TO_BYTE_ge1 : forall w, 0 <= w -> 1 <= BIT_TO_BYTE w.
Proof.
  intros w H. destruct (Z.eq_dec w 0) as [->|]; [unfold BIT_TO_BYTE; cbn; lia|].
  rewrite BIT_TO_BYTE_pos by lia. lia.
Qed.

Lemma hdr_bit_zero : forall fs mask j d, Forall (fun f => f_width f = 0) fs -> hdr_bit fs mask j d = d.
Proof.
  unfold hdr_bit. induction fs as [|f fs IH]; intros mask j d H; auto. inversion H; subst. cbn [fold_left].
  rewrite IH by auto. unfold field_bit. destruct (field_source mask f); auto.
  replace ((f_off f <=? j) && (j <? f_off f + f_width f)) with false by lia. auto.
Qed.

Lemma hdr_bit_outside : forall fs mask size j d, Forall (wk_src mask size) fs ->
  ~ (0 <= j < 8 * size) -> hdr_bit fs mask j d = d.
Proof.
  unfold hdr_bit. induction fs as [|f fs IH]; intros mask size j d H Hj; auto. inversion H as [|? ? [_ Hf] Hr]; subst.
  cbn [fold_left]. rewrite (IH _ size) by auto. unfold field_bit. destruct (field_source mask f) as [v|]; auto.
  destruct (Hf v eq_refl) as [H0|[H1 [H2 _]]];
  replace ((f_off f <=? j) && (j <? f_off f + f_width f)) with false by lia; auto.
Qed.

Lemma copy_fields_spec : forall fs offset b mask size,
  bytes_ok b -> 0 <= offset -> offset + size <= zlen b -> 0 <= size ->
  Forall (wf_src mask size) fs ->
  exists b', copy_fields fs offset b mask = Ret b' /\ length b' = length b /\ bytes_ok b' /\
  forall i, 0 <= i -> bit_at b' i = hdr_bit fs mask (i - 8 * offset) (bit_at b i).
Proof.
  induction fs as [|f fs IH]; intros offset b mask size Hb Ho Hl Hs Hwf; cbn [copy_fields].
  - exists b. repeat split; auto.
  - inversion Hwf as [|? ? [Hw Hf] Hr]; subst.
    destruct (Z.ltb_spec (zlen b) (BIT_TO_BYTE (f_width f) + offset)) as [He|He].
    + exists b. split; [auto|split; [auto|split; [auto|]]]. intros i Hi.
      assert (Hs0 : size = 0).
      { destruct (Z.eq_dec (f_width f) 0) as [E0|E0].
        - rewrite E0 in He. change (BIT_TO_BYTE 0) with 1 in He. lia.
        - rewrite BIT_TO_BYTE_pos in He by lia. lia. }
      symmetry. apply hdr_bit_zero. eapply Forall_impl; [|exact Hwf]. intros g [Hg _]. lia.
    + destruct (field_source mask f) as [v|] eqn:Es.
      * destruct (Hf v eq_refl) as [H1 [H2 [H3 [H4 H5]]]].
        destruct (write_field_spec b offset f v Hb Ho H1 ltac:(lia) ltac:(lia) H3 H5) as [b1 [E1 [L1 [O1 S1]]]].
        rewrite E1. cbn [bind].
        destruct (IH offset b1 mask size O1 Ho ltac:(unfold zlen in *; lia) Hs Hr) as [b' [E2 [L2 [O2 S2]]]].
        exists b'. split; [auto|split; [lia|split; [auto|]]]. intros i Hi. rewrite S2, S1 by auto.
        unfold hdr_bit. cbn [fold_left]. f_equal. unfold field_bit. rewrite Es.
        replace ((8 * offset + f_off f <=? i) && (i <? 8 * offset + f_off f + f_width f))
          with ((f_off f <=? i - 8 * offset) && (i - 8 * offset <? f_off f + f_width f)) by lia.
        replace (i - (8 * offset + f_off f)) with (i - 8 * offset - f_off f) by lia. auto.
      * cbn [bind].
        destruct (IH offset b mask size Hb Ho Hl Hs Hr) as [b' [E2 [L2 [O2 S2]]]].
        exists b'. split; [auto|split; [lia|split; [auto|]]]. intros i Hi. rewrite S2 by auto.
        unfold hdr_bit. cbn [fold_left]. f_equal. unfold field_bit. rewrite Es. auto.
Qed.

Lemma write_field_w0 : forall b o f v b', f_width f = 0 -> hdr_write_field b o f v = Ret b' -> b' = b.
Proof.
  intros b o f v b' Hw H. unfold hdr_write_field in H. destruct (8 * zlen b <? _); [discriminate|].
  rewrite Hw in H. cbn in H. apply ret_inj in H. auto.
Qed.

Lemma copy_fields_rel : forall fs offset b mask size b',
  copy_fields fs offset b mask = Ret b' ->
  bytes_ok b -> 0 <= offset -> offset + size <= zlen b -> 0 <= size ->
  Forall (wk_src mask size) fs ->
  length b' = length b /\ bytes_ok b' /\
  forall i, 0 <= i -> bit_at b' i = hdr_bit fs mask (i - 8 * offset) (bit_at b i).
Proof.
  induction fs as [|f fs IH]; intros offset b mask size b' H Hb Ho Hl Hs Hwf; cbn [copy_fields] in H.
  - apply ret_inj in H. subst. repeat split; auto.
  - inversion Hwf as [|? ? [Hw Hf] Hr]; subst.
    destruct (Z.ltb_spec (zlen b) (BIT_TO_BYTE (f_width f) + offset)) as [He|He].
    + apply ret_inj in H. subst. split; [auto|split; [auto|]]. intros i Hi.
      assert (Hs0 : size = 0).
      { destruct (Z.eq_dec (f_width f) 0) as [E0|E0].
        - rewrite E0 in He. change (BIT_TO_BYTE 0) with 1 in He. lia.
        - rewrite BIT_TO_BYTE_pos in He by lia. lia. }
      symmetry. apply hdr_bit_zero. eapply Forall_impl; [|exact Hwf]. intros g [Hg _]. lia.
    + destruct (field_source mask f) as [v|] eqn:Es.
      * binv H. destruct (Hf v eq_refl) as [H0|[H1 [H2 [H3 [H4 H5]]]]].
        { apply write_field_w0 in E; auto. subst a.
          destruct (IH offset b mask size b' H Hb Ho Hl Hs Hr) as [L2 [O2 S2]].
          split; [auto|split; [auto|]]. intros i Hi. rewrite S2 by auto.
          unfold hdr_bit. cbn [fold_left]. f_equal. unfold field_bit. rewrite Es.
          replace ((f_off f <=? i - 8 * offset) && (i - 8 * offset <? f_off f + f_width f)) with false by lia. auto. }
        destruct (write_field_spec b offset f v Hb Ho H1 ltac:(lia) ltac:(lia) H3 H5) as [b1 [E1 [L1 [O1 S1]]]].
        rewrite E in E1. apply ret_inj in E1. subst b1.
        destruct (IH offset a mask size b' H O1 Ho ltac:(unfold zlen in *; lia) Hs Hr) as [L2 [O2 S2]].
        split; [lia|split; [auto|]]. intros i Hi. rewrite S2, S1 by auto.
        unfold hdr_bit. cbn [fold_left]. f_equal. unfold field_bit. rewrite Es.
        replace ((8 * offset + f_off f <=? i) && (i <? 8 * offset + f_off f + f_width f))
          with ((f_off f <=? i - 8 * offset) && (i - 8 * offset <? f_off f + f_width f)) by lia.
        replace (i - (8 * offset + f_off f)) with (i - 8 * offset - f_off f) by lia. auto.
      * cbn [bind] in H.
        destruct (IH offset b mask size b' H Hb Ho Hl Hs Hr) as [L2 [O2 S2]].
        split; [auto|split; [auto|]]. intros i Hi. rewrite S2 by auto.
        unfold hdr_bit. cbn [fold_left]. f_equal. unfold field_bit. rewrite Es. auto.
Qed.

(** ** Stacks *)

Definition wf_hdr (mask : bool) (h : hdr) : Prop :=
  0 <= h_size h /\ Forall (wf_src mask (h_size h)) (h_fields h).

Definition wk_hdr (mask : bool) (h : hdr) : Prop :=
  0 <= h_size h /\ Forall (wk_src mask (h_size h)) (h_fields h).

Lemma wf_wk_hdr : forall mask h, wf_hdr mask h -> wk_hdr mask h.
Proof. intros mask h [H1 H2]. split; auto. eapply Forall_impl; [|exact H2]. apply wf_wk. Qed.

Lemma stack_size_cons : forall h r, stack_size (h :: r) = h_size h + stack_size r.
Proof. reflexivity. Qed.

Lemma stack_size_app : forall a b, stack_size (a ++ b) = stack_size a + stack_size b.
Proof.
  induction a as [|h a IH]; intros b; cbn [app]; [cbn; lia|]. rewrite !stack_size_cons, IH. lia.
Qed.

Lemma stack_size_nonneg : forall hs, Forall (fun h => 0 <= h_size h) hs -> 0 <= stack_size hs.
Proof. induction hs as [|h r IH]; intros H; [cbn; lia|]. inversion H; subst. rewrite stack_size_cons. specialize (IH ltac:(auto)). lia. Qed.

Lemma wf_sizes : forall mask hs, Forall (wk_hdr mask) hs -> Forall (fun h => 0 <= h_size h) hs.
Proof. intros mask hs H. eapply Forall_impl; [|exact H]. intros h [H1 _]. auto. Qed.

Fixpoint stack_bit (hs : list hdr) (mask : bool) (j : Z) (d : bool) : bool :=
  match hs with
  | [] => d
  | h :: r => stack_bit r mask (j - 8 * h_size h) (hdr_bit (h_fields h) mask j d)
  end.

Lemma copy_stack_rel : forall hs offset b mask b',
  copy_stack hs offset b mask = Ret b' ->
  bytes_ok b -> 0 <= offset -> offset + stack_size hs <= zlen b -> Forall (wk_hdr mask) hs ->
  length b' = length b /\ bytes_ok b' /\
  forall i, 0 <= i -> bit_at b' i = stack_bit hs mask (i - 8 * offset) (bit_at b i).
Proof.
  induction hs as [|h r IH]; intros offset b mask b' H Hb Ho Hl Hwf; cbn [copy_stack] in H.
  - apply ret_inj in H. subst. repeat split; auto.
  - inversion Hwf as [|? ? [Hs Hf] Hr]; subst. rewrite stack_size_cons in Hl. binv H.
    pose proof (stack_size_nonneg _ (wf_sizes _ _ Hr)) as Hn.
    destruct (copy_fields_rel (h_fields h) offset b mask (h_size h) a E Hb Ho ltac:(lia) Hs Hf) as [L1 [O1 S1]].
    destruct (IH (offset + h_size h) a mask b' H O1 ltac:(lia) ltac:(unfold zlen in *; lia) Hr) as [L2 [O2 S2]].
    split; [lia|split; [auto|]]. intros i Hi. rewrite S2, S1 by auto.
    cbn [stack_bit]. f_equal. lia.
Qed.

Lemma copy_stack_safe : forall hs offset b mask,
  bytes_ok b -> 0 <= offset -> offset + stack_size hs <= zlen b -> Forall (wf_hdr mask) hs ->
  exists b', copy_stack hs offset b mask = Ret b'.
Proof.
  induction hs as [|h r IH]; intros offset b mask Hb Ho Hl Hwf; cbn [copy_stack].
  - exists b. auto.
  - inversion Hwf as [|? ? [Hs Hf] Hr]; subst. rewrite stack_size_cons in Hl.
    assert (Hn : 0 <= stack_size r).
    { apply stack_size_nonneg. eapply Forall_impl; [|exact Hr]. intros g [Hg _]. auto. }
    destruct (copy_fields_spec (h_fields h) offset b mask (h_size h) Hb Ho ltac:(lia) Hs Hf) as [b1 [E1 [L1 [O1 S1]]]].
    unfold hdr_copy_to_buf_. rewrite E1. cbn [bind].
    apply IH; auto; [lia|unfold zlen in *; lia].
Qed.

Lemma stack_bit_outside : forall hs mask j d, Forall (wk_hdr mask) hs ->
  (j < 0 \/ 8 * stack_size hs <= j) -> stack_bit hs mask j d = d.
Proof.
  induction hs as [|h r IH]; intros mask j d Hwf Hj; auto. inversion Hwf as [|? ? [Hs Hf] Hr]; subst.
  rewrite stack_size_cons in Hj. pose proof (stack_size_nonneg _ (wf_sizes _ _ Hr)) as Hn.
  cbn [stack_bit]. rewrite IH; auto; [|lia]. apply (hdr_bit_outside _ _ (h_size h)); auto. lia.
Qed.

Lemma stack_bit_inside : forall A h B mask j d, Forall (wk_hdr mask) (A ++ h :: B) ->
  0 <= j < 8 * h_size h ->
  stack_bit (A ++ h :: B) mask (8 * stack_size A + j) d = hdr_bit (h_fields h) mask j d.
Proof.
  induction A as [|a A IH]; intros h B mask j d Hwf Hj; cbn [app stack_bit] in *.
  - change (stack_size []) with 0. replace (8 * 0 + j) with j by lia. inversion Hwf as [|? ? [Hs Hf] Hr]; subst.
    rewrite stack_bit_outside; auto. lia.
  - inversion Hwf as [|? ? [Hs Hf] Hr]; subst. rewrite stack_size_cons.
    replace (8 * (h_size a + stack_size A) + j - 8 * h_size a) with (8 * stack_size A + j) by lia.
    rewrite IH by auto. f_equal. apply (hdr_bit_outside _ _ (h_size a)); auto.
    assert (0 <= stack_size A). { apply stack_size_nonneg. apply (wf_sizes mask). apply Forall_app in Hr. tauto. }
    lia.
Qed.

(** ** Lengths, whatever the headers are *)

Lemma bit_set_len : forall b p v b', bit_set b p v = Ret b' -> length b' = length b.
Proof.
  intros b p v b' H. unfold bit_set in H. destruct (p / 8 <? zlen b); [|discriminate]. binv H.
  apply bput_inv in H. destruct H as [_ H]. subst. apply upd_length.
Qed.

Lemma write_bits_len : forall n pos b base val first b',
  write_bits n pos b base val first = Ret b' -> length b' = length b.
Proof.
  induction n as [|n IH]; intros pos b base val first b' H; cbn [write_bits] in H.
  - apply ret_inj in H. congruence.
  - binv H. binv H. apply IH in H. apply bit_set_len in E0. congruence.
Qed.

Lemma write_field_len : forall b o f v b', hdr_write_field b o f v = Ret b' -> length b' = length b.
Proof.
  intros b o f v b' H. unfold hdr_write_field in H. destruct (8 * zlen b <? _); [discriminate|].
  eapply write_bits_len; eauto.
Qed.

Lemma copy_fields_len : forall fs o b mask b', copy_fields fs o b mask = Ret b' -> length b' = length b.
Proof.
  induction fs as [|f fs IH]; intros o b mask b' H; cbn [copy_fields] in H.
  - apply ret_inj in H. congruence.
  - destruct (zlen b <? _); [apply ret_inj in H; congruence|]. binv H. apply IH in H. rewrite H.
    destruct (field_source mask f); [eapply write_field_len; eauto|apply ret_inj in E; congruence].
Qed.

Lemma copy_stack_len : forall hs o b mask b', copy_stack hs o b mask = Ret b' -> length b' = length b.
Proof.
  induction hs as [|h r IH]; intros o b mask b' H; cbn [copy_stack] in H.
  - apply ret_inj in H. congruence.
  - binv H. apply IH in H. apply copy_fields_len in E. congruence.
Qed.

Lemma bit_set_ok : forall b p v b', bytes_ok b -> bit_set b p v = Ret b' -> bytes_ok b'.
Proof.
  intros b p v b' Hb H. unfold bit_set in H. destruct (p / 8 <? zlen b); [|discriminate]. binv H.
  apply bput_inv in H. destruct H as [_ H]. subst. apply upd_Forall; auto. destruct (negb _); apply u8_byte.
Qed.

Lemma write_bits_ok : forall n pos b base val first b', bytes_ok b ->
  write_bits n pos b base val first = Ret b' -> bytes_ok b'.
Proof.
  induction n as [|n IH]; intros pos b base val first b' Hb H; cbn [write_bits] in H.
  - apply ret_inj in H. congruence.
  - binv H. binv H. eapply IH; [|exact H]. eapply bit_set_ok; [|exact E0]. auto.
Qed.

Lemma copy_fields_ok : forall fs o b mask b', bytes_ok b -> copy_fields fs o b mask = Ret b' -> bytes_ok b'.
Proof.
  induction fs as [|f fs IH]; intros o b mask b' Hb H; cbn [copy_fields] in H.
  - apply ret_inj in H. congruence.
  - destruct (zlen b <? _); [apply ret_inj in H; congruence|]. binv H. eapply IH; [|exact H].
    destruct (field_source mask f) as [v|]; [|apply ret_inj in E; congruence].
    unfold hdr_write_field in E. destruct (8 * zlen b <? _); [discriminate|]. eapply write_bits_ok; eauto.
Qed.

Lemma copy_stack_ok : forall hs o b mask b', bytes_ok b -> copy_stack hs o b mask = Ret b' -> bytes_ok b'.
Proof.
  induction hs as [|h r IH]; intros o b mask b' Hb H; cbn [copy_stack] in H.
  - apply ret_inj in H. congruence.
  - binv H. eapply IH; [|exact H]. eapply copy_fields_ok; [|exact E]; auto.
Qed.

Lemma bit_at_balloc : forall n i, bit_at (balloc n) i = false.
Proof.
  intros n i. unfold bit_at, balloc. rewrite nth_repeat'. apply Z.testbit_0_l.
Qed.

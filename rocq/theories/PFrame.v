(** Lemmas about frames in a buffer, masks and matching. *)

From Verif Require Export PSer SpecFrame.

Lemma sum_sizes_stack : forall hs, sum_sizes hs = stack_size hs.
Proof. unfold sum_sizes. induction hs as [|h r IH]; [auto|]. cbn [map fold_right]. rewrite stack_size_cons, IH. auto. Qed.

Lemma field_data_source : forall f, field_source false f = field_data f.
Proof. reflexivity. Qed.

Lemma well_formed_wk : forall h, well_formed h -> wk_hdr false h.
Proof.
  intros h [H1 H2]. split; auto. apply Forall_forall. intros f Hf. destruct (H2 f Hf) as [H3 H4].
  split; auto. intros v Hv. destruct (H4 v Hv) as [H5|[[H5 [H6 H7]] [H8 [H9 H10]]]]; auto.
  right. apply is_byte_bytes in H9. unfold small, zlen. tauto.
Qed.

Lemma bit_at_repeat255 : forall n i, 0 <= i < 8 * Z.of_nat n -> bit_at (repeat 255 n) i = true.
Proof.
  intros n i Hi. unfold bit_at. rewrite nth_indep with (d' := 255) by (rewrite repeat_length; lia).
  rewrite nth_repeat'. assert (H : 0 <= 7 - i mod 8 < 8) by lia. revert H. generalize (7 - i mod 8). intros k Hk.
  assert (k = 0 \/ k = 1 \/ k = 2 \/ k = 3 \/ k = 4 \/ k = 5 \/ k = 6 \/ k = 7) as D by lia.
  destruct D as [->|[->|[->|[->|[->|[->|[->| -> ]]]]]]]; reflexivity.
Qed.

Lemma well_formed_mask_wk : forall h, well_formed_mask h -> h_size h <= size_limit -> wk_hdr true h.
Proof.
  intros h [H1 H2] Hl. split; auto. apply Forall_forall. intros f Hf. destruct (H2 f Hf) as [H3 H4].
  split; auto. intros v Hv. unfold field_source in Hv. destruct (f_skip f); [discriminate|].
  apply some_inj in Hv. subst v. destruct (H4 eq_refl) as [H5|[H5 [H6 H7]]]; auto. right.
  pose proof (BIT_TO_BYTE_ge (f_width f) H6). pose proof (BIT_TO_BYTE_ge1 (f_width f) H6).
  split; [auto|split; [auto|split; [rewrite zlen_repeat; lia|split; [apply bytes_ok_repeat; unfold byte_ok; lia|]]]].
  unfold small. rewrite zlen_repeat. destruct (Z.eq_dec (f_width f) 0) as [E|E].
  - rewrite E. change (BIT_TO_BYTE 0) with 1. lia.
  - rewrite BIT_TO_BYTE_pos by lia. unfold size_limit in Hl. lia.
Qed.

(** ** frame_to_buf *)

Lemma len_from_inv : forall stk i n, len_from stk i = Ret n -> n = stack_size (skipn i stk) /\ n <= size_limit.
Proof.
  intros stk i n H. unfold len_from in H. destruct (Z.ltb_spec size_limit (stack_size (skipn i stk))); [discriminate|].
  apply ret_inj in H. lia.
Qed.

Lemma frame_to_buf_inv : forall f f' b, frame_to_buf f = Ret (f', b) ->
  fill_all (length (fr_stack f)) (fr_stack f) = Ret (fr_stack f') /\
  fr_padding f' = fr_padding f /\ fr_has_mask f' = fr_has_mask f /\
  stack_size (fr_stack f') <= size_limit /\
  copy_stack (fr_stack f') 0 (balloc (Z.max (stack_size (fr_stack f')) 60)) false = Ret b.
Proof.
  intros f f' b H. unfold frame_to_buf in H. binv H. binv H. binv H. apply ret_inj in H. inversion H; subst.
  apply len_from_inv in E0. cbn [skipn] in E0. destruct E0 as [-> Hl]. cbn [fr_stack fr_padding fr_has_mask]. auto.
Qed.

Lemma emitted_length : forall f f' b, frame_to_buf f = Ret (f', b) ->
  Z.of_nat (length b) = Z.max 60 (sum_sizes (fr_stack f')).
Proof.
  intros f f' b H. apply frame_to_buf_inv in H. destruct H as [_ [_ [_ [_ H]]]].
  apply copy_stack_len in H. rewrite H, sum_sizes_stack. fold (zlen (balloc (Z.max (stack_size (fr_stack f')) 60))).
  rewrite zlen_balloc by lia. lia.
Qed.

Lemma emitted_bytes : forall f f' b, frame_to_buf f = Ret (f', b) -> Forall is_byte b.
Proof.
  intros f f' b H. apply frame_to_buf_inv in H. destruct H as [_ [_ [_ [_ H]]]].
  apply is_byte_bytes. eapply copy_stack_ok; [|exact H]. apply balloc_bytes.
Qed.

Lemma Forall_nth_error : forall A (P : A -> Prop) l k x, Forall P l -> nth_error l k = Some x -> P x.
Proof. intros A P l k x H Hk. rewrite Forall_forall in H. apply H. eapply nth_error_In; eauto. Qed.

Lemma firstn_nth_split : forall A (l : list A) k x, nth_error l k = Some x ->
  l = firstn k l ++ x :: skipn (S k) l.
Proof.
  induction l as [|y l IH]; intros [|k] x H; cbn in *; try discriminate.
  - congruence.
  - rewrite <- IH; auto.
Qed.

Lemma stack_bits : forall stk b, Forall well_formed stk ->
  copy_stack stk 0 (balloc (Z.max (stack_size stk) 60)) false = Ret b ->
  (forall k h j, nth_error stk k = Some h -> 0 <= j < 8 * h_size h ->
     bit_at b (8 * start_of stk k + j) = hdr_bit (h_fields h) false j false) /\
  (forall i, 8 * stack_size stk <= i -> bit_at b i = false).
Proof.
  intros stk b Hwf H.
  assert (Hwk : Forall (wk_hdr false) stk) by (eapply Forall_impl; [|exact Hwf]; apply well_formed_wk).
  pose proof (stack_size_nonneg _ (wf_sizes _ _ Hwk)) as Hn.
  destruct (copy_stack_rel _ _ _ _ _ H (balloc_bytes _) ltac:(lia) ltac:(rewrite zlen_balloc; lia) Hwk) as [L [O S]].
  split.
  - intros k h j Hk Hj. pose proof (firstn_nth_split _ _ _ _ Hk) as Hsp. unfold start_of. rewrite sum_sizes_stack.
    assert (Hs : 0 <= stack_size (firstn k stk)).
    { apply stack_size_nonneg. apply (wf_sizes false). rewrite Hsp in Hwk. apply Forall_app in Hwk. tauto. }
    rewrite S by lia. rewrite bit_at_balloc, Z.mul_0_r, Z.sub_0_r. rewrite Hsp at 1.
    rewrite <- Hsp. rewrite Hsp at 1. apply stack_bit_inside; auto. rewrite <- Hsp. auto.
  - intros i Hi. rewrite S by lia. rewrite bit_at_balloc. apply stack_bit_outside; auto. lia.
Qed.

(** ** Reading a field back *)

Lemma hdr_bit_app : forall a b mask j d, hdr_bit (a ++ b) mask j d = hdr_bit b mask j (hdr_bit a mask j d).
Proof. intros. apply fold_left_app. Qed.

Lemma hdr_bit_miss : forall fs mask j d,
  (forall g, In g fs -> field_source mask g = None \/ ~ (f_off g <= j < f_off g + f_width g)) ->
  hdr_bit fs mask j d = d.
Proof.
  unfold hdr_bit. induction fs as [|g fs IH]; intros mask j d H; auto. cbn [fold_left].
  rewrite IH by (intros; apply H; right; auto). unfold field_bit.
  destruct (H g (or_introl eq_refl)) as [->|Hn]; auto. destruct (field_source mask g); auto.
  replace ((f_off g <=? j) && (j <? f_off g + f_width g)) with false by lia. auto.
Qed.

Lemma field_number : forall stk b k h j f,
  Forall well_formed stk ->
  copy_stack stk 0 (balloc (Z.max (stack_size stk) 60)) false = Ret b ->
  nth_error stk k = Some h -> nth_error (h_fields h) j = Some f -> within h f ->
  (forall j' g, j' <> j -> nth_error (h_fields h) j' = Some g -> field_data g <> None -> ~ overlap f g) ->
  number_at b (8 * start_of stk k + f_off f) (Z.to_nat (f_width f)) =
  match field_data f with
  | Some v => positional 256 v mod 2 ^ f_width f
  | None => 0
  end.
Proof.
  intros stk b k h j f Hwf H Hk Hj [Hw1 [Hw2 Hw3]] Hov.
  destruct (stack_bits stk b Hwf H) as [Hb _].
  pose proof (Forall_nth_error _ _ _ _ _ Hwf Hk) as [Hsz Hfs].
  pose proof (firstn_nth_split _ _ _ _ Hj) as Hsp.
  assert (Hbit : forall i, 0 <= i < f_width f -> bit_at b (8 * start_of stk k + f_off f + i) =
     match field_data f with Some v => bit_at v (8 * zlen v - f_width f + i) | None => false end).
  { intros i Hi. replace (8 * start_of stk k + f_off f + i) with (8 * start_of stk k + (f_off f + i)) by lia.
    rewrite (Hb k h (f_off f + i) Hk) by lia. rewrite Hsp at 1. rewrite hdr_bit_app.
    change (f :: skipn (S j) (h_fields h)) with ([f] ++ skipn (S j) (h_fields h)). rewrite hdr_bit_app.
    rewrite (hdr_bit_miss (skipn (S j) (h_fields h))).
    2:{ intros g Hg. apply In_nth_error in Hg. destruct Hg as [m Hm]. 
        destruct (field_source false g) as [v|] eqn:Ev; [|auto]. right. intros Hc.
        assert (Hm' : nth_error (h_fields h) (S j + m) = Some g).
        { rewrite <- Hm. clear. revert j m. induction (h_fields h) as [|x l IH]; intros j m.
          - cbn. destruct m; auto.
          - cbn [skipn plus nth_error]. destruct j; auto. }
        apply (Hov (S j + m)%nat g); [lia|auto|rewrite <- field_data_source; congruence|unfold overlap; lia]. }
    rewrite (hdr_bit_miss (firstn j (h_fields h))).
    2:{ intros g Hg. apply In_nth_error in Hg. destruct Hg as [m Hm].
        destruct (field_source false g) as [v|] eqn:Ev; [|auto]. right. intros Hc.
        assert (Hlt : (m < j)%nat).
        { assert (m < length (firstn j (h_fields h)))%nat by (apply nth_error_Some; congruence).
          rewrite firstn_length in *. lia. }
        assert (Hm' : nth_error (h_fields h) m = Some g).
        { rewrite <- Hm. rewrite <- (firstn_skipn j (h_fields h)) at 1. apply nth_error_app1. apply nth_error_Some. congruence. }
        apply (Hov m g); [lia|auto|rewrite <- field_data_source; congruence|unfold overlap; lia]. }
    unfold hdr_bit, field_bit. cbn [fold_left]. rewrite field_data_source. destruct (field_data f) as [v|]; auto.
    replace ((f_off f <=? f_off f + i) && (f_off f + i <? f_off f + f_width f)) with true by lia.
    f_equal. lia. }
  destruct (field_data f) as [v|] eqn:Ev.
  - destruct (Hfs f (nth_error_In _ _ Hj)) as [_ Hv]. destruct (Hv v Ev) as [H0|[_ [Hlen [Hbytes _]]]].
    + rewrite H0. cbn. rewrite Z.mod_1_r. auto.
    + apply is_byte_bytes in Hbytes. rewrite (number_at_ext _ b v _ (8 * zlen v - Z.of_nat (Z.to_nat (f_width f)))).
      * rewrite number_at_tail by (auto; unfold zlen; lia). rewrite Z2Nat.id by lia. rewrite positional_be_val. auto.
      * intros i Hi. rewrite Hbit by lia. f_equal. lia.
  - assert (G : forall w p, (forall i, 0 <= i < Z.of_nat w -> bit_at b (p + i) = false) -> number_at b p w = 0).
    { induction w as [|w IH]; intros p Hz; auto. cbn [number_at]. rewrite IH by (intros; apply Hz; lia).
      rewrite Hz by lia. auto. }
    apply G. intros i Hi. apply Hbit. lia.
Qed.

Lemma emitted_field : forall f f' b k h j fl,
  frame_to_buf f = Ret (f', b) -> Forall well_formed (fr_stack f') ->
  nth_error (fr_stack f') k = Some h -> nth_error (h_fields h) j = Some fl -> within h fl ->
  (forall j' g, j' <> j -> nth_error (h_fields h) j' = Some g -> field_data g <> None -> ~ overlap fl g) ->
  number_at b (8 * start_of (fr_stack f') k + f_off fl) (Z.to_nat (f_width fl)) =
  match field_data fl with
  | Some v => positional 256 v mod 2 ^ f_width fl
  | None => 0
  end.
Proof.
  intros f f' b k h j fl H Hwf Hk Hj Hin Hov. apply frame_to_buf_inv in H. destruct H as [_ [_ [_ [_ H]]]].
  eapply field_number; eauto.
Qed.

(** ** Placement *)

Lemma byte_ext : forall x y, byte_ok x -> byte_ok y -> (forall k, 0 <= k < 8 -> Z.testbit x k = Z.testbit y k) -> x = y.
Proof.
  intros x y Hx Hy H. apply Z.bits_inj'. intros n Hn. destruct (Z.ltb_spec n 8) as [Hl|Hl]; [apply H; lia|].
  unfold byte_ok in *. rewrite <- (Z.mod_small x (2 ^ 8)), <- (Z.mod_small y (2 ^ 8)) by (cbn; lia).
  rewrite !Z.mod_pow2_bits_high by lia. auto.
Qed.

Lemma buf_ext : forall a b, bytes_ok a -> bytes_ok b -> length a = length b ->
  (forall i, 0 <= i < 8 * zlen a -> bit_at a i = bit_at b i) -> a = b.
Proof.
  intros a b Ha Hb Hl H. apply nth_ext with (d := 0) (d' := 0); auto. intros n Hn.
  apply byte_ext; try (apply bytes_ok_nth; auto). intros k Hk.
  specialize (H (8 * Z.of_nat n + (7 - k)) ltac:(unfold zlen; lia)). unfold bit_at in H.
  assert (E1 : (8 * Z.of_nat n + (7 - k)) / 8 = Z.of_nat n) by lia.
  assert (E2 : 7 - (8 * Z.of_nat n + (7 - k)) mod 8 = k) by lia.
  rewrite E1, E2, Nat2Z.id in H. auto.
Qed.

Lemma bit_at_slice : forall b p n i, 0 <= i < 8 * Z.of_nat n -> (p + n <= length b)%nat ->
  bit_at (slice b p n) i = bit_at b (8 * Z.of_nat p + i).
Proof.
  intros b p n i Hi Hl. unfold bit_at, slice.
  assert (E1 : (8 * Z.of_nat p + i) / 8 = Z.of_nat p + i / 8) by lia.
  assert (E2 : (8 * Z.of_nat p + i) mod 8 = i mod 8) by lia.
  rewrite E1, E2. rewrite Z2Nat.inj_add, Nat2Z.id by lia. f_equal.
  rewrite <- (firstn_skipn n (skipn p b)) at 1.
  transitivity (nth (Z.to_nat (i / 8)) (skipn p b) 0).
  - rewrite firstn_skipn. rewrite <- (firstn_skipn n (skipn p b)) at 2. rewrite app_nth1; auto.
    rewrite firstn_length, skipn_length. lia.
  - clear. revert p. induction b as [|x b IH]; intros p.
    + destruct p; cbn; destruct (Z.to_nat (i / 8)); auto.
    + destruct p; auto. cbn [skipn plus nth]. apply IH.
Qed.

Lemma slice_ok : forall b p n, bytes_ok b -> bytes_ok (slice b p n).
Proof.
  intros b p n H. unfold slice, bytes_ok in *. rewrite Forall_forall in *. intros x Hx. apply H.
  assert (In x (skipn p b)).
  { rewrite <- (firstn_skipn n (skipn p b)). apply in_or_app. auto. }
  rewrite <- (firstn_skipn p b). apply in_or_app. auto.
Qed.

Lemma copy_hdr_alone : forall h, wf_hdr false h -> h_size h <= size_limit ->
  exists b, hdr_copy_to_buf h 0 (balloc (h_size h)) = Ret b /\ zlen b = h_size h /\ bytes_ok b /\
    forall i, 0 <= i -> bit_at b i = hdr_bit (h_fields h) false i false.
Proof.
  intros h [Hs Hf] Hl.
  destruct (copy_fields_spec (h_fields h) 0 (balloc (h_size h)) false (h_size h) (balloc_bytes _) ltac:(lia)
     ltac:(rewrite zlen_balloc; lia) Hs Hf) as [b [E [L [O S]]]].
  exists b. split; [exact E|split; [|split; [auto|]]].
  - unfold zlen. rewrite L. fold (zlen (balloc (h_size h))). rewrite zlen_balloc by lia. lia.
  - intros i Hi. rewrite S by auto. rewrite bit_at_balloc. f_equal. lia.
Qed.

Lemma start_of_bounds : forall stk k h, Forall well_formed stk -> nth_error stk k = Some h ->
  0 <= start_of stk k /\ start_of stk k + h_size h <= stack_size stk /\ 0 <= h_size h.
Proof.
  intros stk k h Hwf Hk. pose proof (firstn_nth_split _ _ _ _ Hk) as Hsp.
  assert (Hwk : Forall (wk_hdr false) stk) by (eapply Forall_impl; [|exact Hwf]; apply well_formed_wk).
  unfold start_of. rewrite sum_sizes_stack.
  pose proof (wf_sizes _ _ Hwk) as Hall. rewrite Hsp in Hall. apply Forall_app in Hall. destruct Hall as [Ha Hb].
  pose proof (Forall_inv Hb) as Hh. cbn beta in Hh. apply Forall_inv_tail in Hb.
  pose proof (stack_size_nonneg _ Ha). pose proof (stack_size_nonneg _ Hb).
  assert (E : stack_size stk = stack_size (firstn k stk) + (h_size h + stack_size (skipn (S k) stk))).
  { rewrite Hsp at 1. rewrite stack_size_app, stack_size_cons. auto. }
  lia.
Qed.

Lemma emitted_placement : forall f f' b k h,
  frame_to_buf f = Ret (f', b) -> Forall well_formed (fr_stack f') ->
  nth_error (fr_stack f') k = Some h ->
  forall a, hdr_copy_to_buf h 0 (balloc (h_size h)) = Ret a ->
  slice b (Z.to_nat (start_of (fr_stack f') k)) (Z.to_nat (h_size h)) = a.
Proof.
  intros f f' b k h H Hwf Hk a Ha. pose proof (emitted_length _ _ _ H) as Hlen. pose proof (emitted_bytes _ _ _ H) as Hby.
  apply is_byte_bytes in Hby. rewrite sum_sizes_stack in Hlen.
  apply frame_to_buf_inv in H. destruct H as [_ [_ [_ [_ H]]]].
  destruct (stack_bits _ _ Hwf H) as [Hb _].
  destruct (start_of_bounds _ _ _ Hwf Hk) as [H1 [H2 H3]].
  pose proof (Forall_nth_error _ _ _ _ _ Hwf Hk) as Hh. apply well_formed_wk in Hh. destruct Hh as [_ Hfs].
  destruct (copy_fields_rel _ _ _ _ (h_size h) _ Ha (balloc_bytes _) ltac:(lia) ltac:(rewrite zlen_balloc; lia) H3 Hfs) as [L [O S]].
  assert (La : zlen a = h_size h). { unfold zlen. rewrite L. fold (zlen (balloc (h_size h))). rewrite zlen_balloc by lia. lia. }
  assert (Ls : length (slice b (Z.to_nat (start_of (fr_stack f') k)) (Z.to_nat (h_size h))) = Z.to_nat (h_size h)).
  { unfold slice. rewrite firstn_length, skipn_length. lia. }
  apply buf_ext; auto.
  - apply slice_ok; auto.
  - unfold zlen in La. lia.
  - intros i Hi. unfold zlen in Hi. rewrite Ls in Hi. rewrite bit_at_slice by lia.
    rewrite Z2Nat.id by lia. rewrite (Hb k h i Hk) by lia. rewrite S by lia. rewrite bit_at_balloc. f_equal. lia.
Qed.

Lemma emitted_tail : forall f f' b i,
  frame_to_buf f = Ret (f', b) -> Forall well_formed (fr_stack f') ->
  (Z.to_nat (sum_sizes (fr_stack f')) <= i < length b)%nat -> nth i b 0 = 0.
Proof.
  intros f f' b i H Hwf Hi. pose proof (emitted_bytes _ _ _ H) as Hby. apply is_byte_bytes in Hby.
  apply frame_to_buf_inv in H. destruct H as [_ [_ [_ [_ H]]]].
  destruct (stack_bits _ _ Hwf H) as [_ Hb]. rewrite sum_sizes_stack in Hi.
  apply byte_ext; [apply bytes_ok_nth; auto|unfold byte_ok; lia|]. intros k Hk. rewrite Z.testbit_0_l.
  specialize (Hb (8 * Z.of_nat i + (7 - k)) ltac:(lia)). unfold bit_at in Hb.
  assert (E1 : (8 * Z.of_nat i + (7 - k)) / 8 = Z.of_nat i) by lia.
  assert (E2 : 7 - (8 * Z.of_nat i + (7 - k)) mod 8 = k) by lia.
  rewrite E1, E2, Nat2Z.id in Hb. auto.
Qed.

(** ** The mask *)

Lemma hdr_bit_mask : forall fs size j d, Forall (wk_src true size) fs ->
  hdr_bit fs true j d = d || existsb (fun f => negb (f_skip f) && (f_off f <=? j) && (j <? f_off f + f_width f)) fs.
Proof.
  unfold hdr_bit. induction fs as [|f fs IH]; intros size j d H; [cbn; rewrite orb_false_r; auto|].
  inversion H as [|? ? [Hw Hf] Hr]; subst. cbn [fold_left existsb]. rewrite (IH size) by auto.
  rewrite orb_assoc. f_equal. unfold field_bit, field_source in *. destruct (f_skip f); cbn [negb andb]; [rewrite orb_false_r; auto|].
  destruct ((f_off f <=? j) && (j <? f_off f + f_width f)) eqn:E; [|rewrite orb_false_r; auto].
  rewrite orb_true_r. destruct (Hf _ eq_refl) as [H0|[H1 [H2 [H3 _]]]]; [lia|].
  rewrite zlen_repeat in *. rewrite bit_at_repeat255; auto. lia.
Qed.

Lemma memset_bits : forall b p, bytes_ok b -> 0 <= p <= zlen b ->
  exists b', memset_in b p 255 (zlen b - p) = Ret b' /\ length b' = length b /\ bytes_ok b' /\
  forall i, 0 <= i < 8 * zlen b -> bit_at b' i = if 8 * p <=? i then true else bit_at b i.
Proof.
  intros b p Hb Hp. unfold memset_in.
  destruct (Z.ltb_spec (zlen b - p) 0); [lia|]. cbn [orb].
  destruct (Z.ltb_spec p 0); [lia|]. destruct (Z.ltb_spec (zlen b) (p + (zlen b - p))); [lia|]. cbn [orb].
  eexists. split; [reflexivity|].
  assert (Hf : length (firstn (Z.to_nat p) b) = Z.to_nat p) by (rewrite firstn_length; unfold zlen in *; lia).
  assert (Hsk : skipn (Z.to_nat (p + (zlen b - p))) b = []) by (apply skipn_all2; unfold zlen in *; lia).
  rewrite Hsk, app_nil_r. split; [|split].
  - rewrite app_length, Hf, repeat_length. unfold zlen in *. lia.
  - apply bytes_ok_app. split; [|apply bytes_ok_repeat; unfold byte_ok; lia].
    apply (slice_ok b 0 (Z.to_nat p)); auto.
  - intros i Hi. destruct (Z.leb_spec (8 * p) i).
    + rewrite bit_at_app_r by (unfold zlen; rewrite Hf; lia). apply bit_at_repeat255. unfold zlen in *. rewrite Hf. lia.
    + rewrite bit_at_app_l by (unfold zlen; rewrite Hf; lia).
      change (firstn (Z.to_nat p) b) with (slice b 0 (Z.to_nat p)). rewrite bit_at_slice by (unfold zlen in *; lia).
      f_equal.
Qed.

Lemma mask_bits : forall f m, frame_mask_to_buf f = Ret m -> Forall well_formed_mask (fr_stack f) ->
  Z.of_nat (length m) = Z.max 60 (sum_sizes (fr_stack f)) /\ Forall is_byte m /\
  (forall i, 8 * sum_sizes (fr_stack f) <= i < 8 * Z.of_nat (length m) -> bit_at m i = true) /\
  (forall k h j, nth_error (fr_stack f) k = Some h -> 0 <= j < 8 * h_size h ->
     (bit_at m (8 * start_of (fr_stack f) k + j) = true <->
      exists fl, In fl (h_fields h) /\ f_skip fl = false /\ f_off fl <= j < f_off fl + f_width fl)).
Proof.
  intros f m H Hwf. unfold frame_mask_to_buf in H. binv H. apply len_from_inv in E. cbn [skipn] in E. destruct E as [-> Hl].
  set (stk := fr_stack f) in *. set (n := stack_size stk) in *.
  assert (Hall : Forall (fun h => 0 <= h_size h) stk) by (eapply Forall_impl; [|exact Hwf]; intros h [Hh _]; auto).
  pose proof (stack_size_nonneg _ Hall) as Hn. fold n in Hn.
  assert (Hsz : forall h, In h stk -> h_size h <= n).
  { intros h Hh. apply in_split in Hh. destruct Hh as [A [B HAB]]. unfold n. rewrite HAB in Hall |- *.
    rewrite stack_size_app, stack_size_cons. apply Forall_app in Hall. destruct Hall as [Ha Hb]. inversion Hb; subst.
    pose proof (stack_size_nonneg _ Ha). pose proof (stack_size_nonneg _ H3). lia. }
  assert (Hwk : Forall (wk_hdr true) stk).
  { apply Forall_forall. intros h Hh. apply well_formed_mask_wk; [rewrite Forall_forall in Hwf; auto|].
    specialize (Hsz h Hh). lia. }
  binv H. set (b0 := balloc (Z.max n 60)) in *.
  assert (Lb0 : zlen b0 = Z.max n 60) by (unfold b0; rewrite zlen_balloc; lia).
  assert (G : length a = length b0 /\ bytes_ok a /\ forall i, 0 <= i < 8 * zlen b0 -> bit_at a i = (8 * n <=? i)).
  { destruct (Z.ltb_spec n 60) as [Hlt|Hge].
    - destruct (memset_bits b0 n (balloc_bytes _) ltac:(lia)) as [b1 [E1 [L1 [O1 S1]]]]. rewrite E in E1.
      apply ret_inj in E1. subst b1. split; [auto|split; [auto|]]. intros i Hi. rewrite S1 by auto.
      destruct (8 * n <=? i); auto. apply bit_at_balloc.
    - apply ret_inj in E. subst a. split; [auto|split; [apply balloc_bytes|]]. intros i Hi. unfold b0. rewrite bit_at_balloc. lia. }
  destruct G as [La [Oa Sa]].
  destruct (copy_stack_rel _ _ _ _ _ H Oa ltac:(lia) ltac:(unfold zlen in *; fold n; lia) Hwk) as [L [O S]].
  rewrite sum_sizes_stack. fold stk. fold n. assert (Lm : zlen m = Z.max n 60) by (unfold zlen in *; lia).
  split; [unfold zlen in *; lia|split; [apply is_byte_bytes; auto|split]].
  - intros i Hi. rewrite S by lia. rewrite Sa by (unfold zlen in *; lia).
    rewrite stack_bit_outside; auto; [lia|]. fold n. lia.
  - intros k h j Hk Hj. pose proof (firstn_nth_split _ _ _ _ Hk) as Hsp.
    unfold start_of. rewrite sum_sizes_stack.
    assert (Hs : 0 <= stack_size (firstn k stk)).
    { apply stack_size_nonneg. rewrite Hsp in Hall. apply Forall_app in Hall. tauto. }
    assert (Hend : stack_size (firstn k stk) + h_size h <= n).
    { unfold n. rewrite Hsp at 2. rewrite stack_size_app, stack_size_cons.
      assert (0 <= stack_size (skipn (Datatypes.S k) stk)); [|lia]. apply stack_size_nonneg. rewrite Hsp in Hall.
      apply Forall_app in Hall. destruct Hall as [_ Hb]. apply Forall_inv_tail in Hb. auto. }
    rewrite S by lia. rewrite Sa by lia. replace (8 * n <=? 8 * stack_size (firstn k stk) + j) with false by lia.
    rewrite Z.mul_0_r, Z.sub_0_r. rewrite Hsp at 1.
    replace (stack_size (firstn k stk)) with (stack_size (firstn k stk)) by auto.
    assert (E1 : stack_bit (firstn k stk ++ h :: skipn (Datatypes.S k) stk) true (8 * stack_size (firstn k stk) + j) false
        = hdr_bit (h_fields h) true j false).
    { apply stack_bit_inside; auto. rewrite <- Hsp. auto. }
    rewrite E1. pose proof (Forall_nth_error _ _ _ _ _ Hwk Hk) as [_ Hfs].
    rewrite (hdr_bit_mask _ _ _ _ Hfs). cbn [orb]. rewrite existsb_exists. split.
    + intros [fl [Hin Hc]]. exists fl. split; [auto|]. destruct (f_skip fl); [discriminate|]. split; auto. cbn [negb andb] in Hc. lia.
    + intros [fl [Hin [Hsk Hc]]]. exists fl. split; auto. rewrite Hsk. cbn [negb andb]. lia.
Qed.

(** The bytes of a list of headers. *)

From Verif Require Import PTextIp Frame PSer SpecParse PParse PMatch SpecFrame PFrame PInv PStep PArgs PSoft PFill PGroup PAll PSafe PAssign PField.

Definition render (hs : list hdr) : buf :=
  match copy_stack hs 0 (balloc (stack_size hs)) false with Ret b => b | Crash _ => [] end.

Lemma wf_size : forall hs, Forall (wf_hdr false) hs -> 0 <= stack_size hs.
Proof. intros hs H. apply stack_size_nonneg. eapply wf_sizes with (mask := false). eapply Forall_impl; [|exact H]. apply wf_wk_hdr. Qed.

Lemma render_spec : forall hs, Forall (wf_hdr false) hs ->
  zlen (render hs) = stack_size hs /\ bytes_ok (render hs) /\ forall i, 0 <= i -> bit_at (render hs) i = stack_bit hs false i false.
Proof.
  intros hs H. pose proof (wf_size hs H) as Hn. unfold render.
  assert (Hk : Forall (wk_hdr false) hs) by (eapply Forall_impl; [|exact H]; apply wf_wk_hdr).
  destruct (copy_stack_safe hs 0 (balloc (stack_size hs)) false (balloc_bytes _) ltac:(lia) ltac:(rewrite zlen_balloc; lia) H) as [b E].
  rewrite E. destruct (copy_stack_rel _ _ _ _ _ E (balloc_bytes _) ltac:(lia) ltac:(rewrite zlen_balloc; lia) Hk) as [L [O S]].
  split; [unfold zlen; rewrite L; fold (zlen (balloc (stack_size hs))); rewrite zlen_balloc by lia; auto|]. split; auto.
  intros i Hi. rewrite S by auto. rewrite bit_at_balloc. f_equal. lia.
Qed.

Lemma stack_bit_app : forall A B mask j d, stack_bit (A ++ B) mask j d = stack_bit B mask (j - 8 * stack_size A) (stack_bit A mask j d).
Proof.
  induction A as [|a A IH]; intros B mask j d; cbn [app stack_bit]; [change (stack_size []) with 0; f_equal; lia|].
  rewrite IH, stack_size_cons. f_equal. lia.
Qed.

Lemma wf_wk_all : forall hs, Forall (wf_hdr false) hs -> Forall (wk_hdr false) hs.
Proof. intros hs H. eapply Forall_impl; [|exact H]. apply wf_wk_hdr. Qed.

Lemma render_app : forall A B, Forall (wf_hdr false) A -> Forall (wf_hdr false) B -> render (A ++ B) = render A ++ render B.
Proof.
  intros A B HA HB. assert (HAB : Forall (wf_hdr false) (A ++ B)) by (apply Forall_app; auto).
  destruct (render_spec _ HA) as [L1 [O1 S1]]. destruct (render_spec _ HB) as [L2 [O2 S2]]. destruct (render_spec _ HAB) as [L3 [O3 S3]].
  rewrite stack_size_app in L3. pose proof (wf_size _ HA). pose proof (wf_size _ HB).
  apply buf_ext; auto; [apply bytes_ok_app; auto|rewrite app_length; unfold zlen in *; lia|].
  intros i Hi. rewrite S3 by lia. rewrite stack_bit_app. destruct (Z.ltb_spec i (8 * zlen (render A))).
  - rewrite bit_at_app_l by lia. rewrite S1 by lia. rewrite (stack_bit_outside B); [|apply wf_wk_all; auto|lia]. auto.
  - rewrite bit_at_app_r by lia. rewrite S2 by lia. rewrite (stack_bit_outside A); [|apply wf_wk_all; auto|lia]. f_equal. lia.
Qed.

(** A buffer that got [hs] from byte 0 on. *)
Lemma copy_render : forall hs n b, Forall (wf_hdr false) hs -> stack_size hs <= n ->
  copy_stack hs 0 (balloc n) false = Ret b -> b = render hs ++ balloc (n - stack_size hs).
Proof.
  intros hs n b H Hn E. pose proof (wf_size hs H) as Hs. destruct (render_spec _ H) as [L1 [O1 S1]].
  destruct (copy_stack_rel _ _ _ _ _ E (balloc_bytes _) ltac:(lia) ltac:(rewrite zlen_balloc; lia) (wf_wk_all _ H)) as [L [O S]].
  assert (Lb : zlen b = n). { unfold zlen. rewrite L. fold (zlen (balloc n)). rewrite zlen_balloc; lia. }
  apply buf_ext; auto; [apply bytes_ok_app; split; [auto|apply balloc_bytes]| |].
  - rewrite app_length. assert (zlen (balloc (n - stack_size hs)) = n - stack_size hs) by (apply zlen_balloc; lia). unfold zlen in *. lia.
  - intros i Hi. rewrite S by lia. rewrite bit_at_balloc. replace (i - 8 * 0) with i by lia.
    destruct (Z.ltb_spec i (8 * zlen (render hs))).
    + rewrite bit_at_app_l by lia. rewrite S1 by lia. auto.
    + rewrite bit_at_app_r by lia. rewrite bit_at_balloc. apply stack_bit_outside; [apply wf_wk_all; auto|lia].
Qed.

Lemma stack_size_firstn_skipn : forall hs k, stack_size (firstn k hs) + stack_size (skipn k hs) = stack_size hs.
Proof. intros hs k. rewrite <- stack_size_app, firstn_skipn. auto. Qed.

Lemma wf_firstn : forall hs k, Forall (wf_hdr false) hs -> Forall (wf_hdr false) (firstn k hs) /\ Forall (wf_hdr false) (skipn k hs).
Proof. intros hs k H. rewrite <- (firstn_skipn k hs) in H. apply Forall_app in H. auto. Qed.

(** Everything emitted from header [k] on. *)
Lemma emitted_from : forall f f' b k, frame_to_buf f = Ret (f', b) -> Forall (wf_hdr false) (fr_stack f') ->
  slice b (Z.to_nat (start_of (fr_stack f') k)) (Z.to_nat (sum_sizes (fr_stack f') - start_of (fr_stack f') k)) = render (skipn k (fr_stack f')).
Proof.
  intros f f' b k H Hwf. apply frame_to_buf_inv in H. destruct H as [_ [_ [_ [_ H]]]].
  apply copy_render in H; [|auto|lia]. unfold start_of. rewrite !sum_sizes_stack. destruct (wf_firstn _ k Hwf) as [H1 H2].
  destruct (render_spec _ H1) as [L1 _]. destruct (render_spec _ H2) as [L2 _].
  pose proof (stack_size_firstn_skipn (fr_stack f') k).
  rewrite <- (firstn_skipn k (fr_stack f')) in H at 1. rewrite render_app in H by auto. subst b. unfold slice. rewrite <- app_assoc.
  rewrite skipn_app. rewrite skipn_all2 by (unfold zlen in *; lia). replace (Z.to_nat (stack_size (firstn k (fr_stack f'))) - length (render (firstn k (fr_stack f'))))%nat with 0%nat by (unfold zlen in *; lia).
  cbn [app skipn]. rewrite firstn_app. rewrite firstn_all2 by (unfold zlen in *; lia).
  replace (Z.to_nat (stack_size (fr_stack f') - stack_size (firstn k (fr_stack f'))) - length (render (skipn k (fr_stack f'))))%nat with 0%nat by (unfold zlen in *; lia).
  cbn [firstn]. apply app_nil_r.
Qed.

(** One header. *)
Lemma emitted_header : forall f f' b k h, frame_to_buf f = Ret (f', b) -> Forall (wf_hdr false) (fr_stack f') ->
  nth_error (fr_stack f') k = Some h ->
  slice b (Z.to_nat (start_of (fr_stack f') k)) (Z.to_nat (h_size h)) = render [h].
Proof.
  intros f f' b k h H Hwf Hk. pose proof (emitted_from f f' b k H Hwf) as E. rewrite (skipn_cons_nth _ _ _ _ Hk) in E.
  pose proof (Forall_nth_error _ _ _ _ _ Hwf Hk) as Hh. destruct (wf_firstn _ (S k) Hwf) as [_ H2].
  change (h :: skipn (S k) (fr_stack f')) with ([h] ++ skipn (S k) (fr_stack f')) in E. rewrite render_app in E by auto.
  destruct (render_spec [h]) as [L1 _]; [auto|]. rewrite stack_size_cons in L1. change (stack_size []) with 0 in L1.
  apply (f_equal (firstn (Z.to_nat (h_size h)))) in E. unfold slice in *. rewrite firstn_firstn in E.
  rewrite firstn_app in E. rewrite (firstn_all2 (render [h])) in E by (unfold zlen in *; lia).
  replace (Z.to_nat (h_size h) - length (render [h]))%nat with 0%nat in E by (unfold zlen in *; lia). cbn [firstn] in E. rewrite app_nil_r in E.
  rewrite <- E. f_equal. unfold start_of. rewrite !sum_sizes_stack. pose proof (stack_size_firstn_skipn (fr_stack f') k) as Hsz.
  rewrite (skipn_cons_nth _ _ _ _ Hk), stack_size_cons in Hsz. pose proof (wf_size _ H2). lia.
Qed.

Lemma serialize_render : forall P stk i b, Forall (wf_hdr false) (skipn i stk) -> (forall ph, P = Some ph -> wf_hdr false ph) ->
  serialize_from P stk i = Ret b ->
  b = match P with Some ph => render [ph] | None => [] end ++ render (skipn i stk) /\ stack_size (skipn i stk) <= size_limit.
Proof.
  intros P stk i b H HP E. unfold serialize_from in E. binv E. apply len_from_inv in E0. destruct E0 as [-> Hl]. split; [|exact Hl].
  assert (B0 : forall hs, balloc (stack_size hs - stack_size hs) = []) by (intros; rewrite Z.sub_diag; reflexivity).
  destruct P as [ph|].
  - pose proof (HP ph eq_refl) as Hph. rewrite <- render_app by auto. cbn [app].
    assert (E1 : copy_stack (ph :: skipn i stk) 0 (balloc (stack_size (ph :: skipn i stk))) false = Ret b).
    { rewrite stack_size_cons. cbn [copy_stack]. rewrite Z.add_comm. unfold hdr_copy_to_buf in E. rewrite Z.add_0_l. exact E. }
    apply copy_render in E1; [|auto|lia]. rewrite B0, app_nil_r in E1. auto.
  - apply copy_render in E; [|auto|lia]. rewrite B0, app_nil_r in E. cbn [app]. auto.
Qed.

(** *** Fields of whole bytes *)
Definition fbytes (f : field) : buf :=
  let w := Z.to_nat (f_width f / 8) in
  match field_data f with Some v => skipn (length v - w) v | None => repeat 0 w end.

Lemma zlen_skipn_n : forall (v : buf) n, zlen (skipn n v) = Z.max 0 (zlen v - Z.of_nat n).
Proof. intros v n. unfold zlen. rewrite skipn_length. lia. Qed.

Lemma skipn_bit : forall v n j, 0 <= j -> bit_at (skipn n v) j = bit_at v (8 * Z.of_nat n + j).
Proof.
  intros v n j Hj. unfold bit_at. replace ((8 * Z.of_nat n + j) / 8) with (Z.of_nat n + j / 8) by lia.
  replace ((8 * Z.of_nat n + j) mod 8) with (j mod 8) by lia. rewrite Z2Nat.inj_add, Nat2Z.id by lia. f_equal.
  destruct (Nat.le_gt_cases n (length v)) as [Hn|Hn].
  - rewrite <- (firstn_skipn n v) at 2. rewrite app_nth2 by (rewrite firstn_length; lia). f_equal. rewrite firstn_length. lia.
  - rewrite skipn_all2 by lia. rewrite !nth_overflow; auto; cbn; lia.
Qed.

Lemma fbytes_spec : forall size f, wf_src false size f -> f_width f mod 8 = 0 ->
  8 * zlen (fbytes f) = f_width f /\ bytes_ok (fbytes f) /\
  forall j, 0 <= j < f_width f -> bit_at (fbytes f) j = field_bit false (f_off f + j) false f.
Proof.
  intros size f [H1 H2] Hm. rewrite field_data_source in H2. unfold fbytes, field_bit. change (field_source false f) with (field_data f). destruct (field_data f) as [v|].
  - destruct (H2 v eq_refl) as [K1 [K2 [K3 [K4 K5]]]]. split; [rewrite zlen_skipn_n; unfold zlen in *; lia|].
    split; [apply Forall_forall; intros x Hx; unfold bytes_ok in K4; rewrite Forall_forall in K4; apply K4; rewrite <- (firstn_skipn (length v - Z.to_nat (f_width f / 8)) v); apply in_or_app; auto|].
    intros j Hj. replace ((f_off f <=? f_off f + j) && (f_off f + j <? f_off f + f_width f)) with true by lia.
    rewrite skipn_bit by lia. f_equal. unfold zlen in *. lia.
  - split; [unfold zlen; rewrite repeat_length; lia|]. split; [apply bytes_ok_repeat; unfold byte_ok; lia|].
    intros j Hj. fold (balloc (f_width f / 8)). apply bit_at_balloc.
Qed.

Lemma bytes_seq : forall size fs p, Forall (wf_src false size) fs -> Forall (fun f => f_width f mod 8 = 0) fs ->
  seqok (map lay fs) (8 * p) -> 0 <= p ->
  8 * zlen (flat_map fbytes fs) = sumw fs /\ bytes_ok (flat_map fbytes fs) /\
  forall j, 0 <= j < sumw fs -> bit_at (flat_map fbytes fs) j = hdr_bit fs false (8 * p + j) false.
Proof.
  intros size. induction fs as [|f fs IH]; intros p Hw Hm Hs Hp.
  { cbn. split; [auto|split; [constructor|intros; lia]]. }
  cbn [map seqok lay] in Hs. destruct Hs as [Ho [Hnn Hs]]. pose proof (Forall_inv Hw) as Hf. pose proof (Forall_inv Hm) as Hfm. cbv beta in Hfm.
  destruct (fbytes_spec size f Hf Hfm) as [L1 [O1 S1]].
  destruct (IH (p + f_width f / 8)) as [L2 [O2 S2]]; [eapply Forall_inv_tail; eauto|eapply Forall_inv_tail; eauto| |lia|].
  { replace (8 * (p + f_width f / 8)) with (8 * p + f_width f) by lia. auto. }
  cbn [flat_map sumw fold_right] in *. fold (sumw fs) in *.
  split; [rewrite zlen_app; lia|]. split; [apply bytes_ok_app; auto|]. intros j Hj. unfold hdr_bit. cbn [fold_left]. fold (hdr_bit fs false (8 * p + j) (field_bit false (8 * p + j) false f)).
  destruct (Z.ltb_spec j (f_width f)).
  - rewrite bit_at_app_l by lia. rewrite S1 by lia. rewrite hdr_bit_miss.
    + f_equal. lia.
    + intros g Hg. right. assert (HG : forall l q, seqok (map lay l) q -> forall x, In x l -> q <= f_off x).
      { clear. induction l as [|y l IH]; intros q H x Hx; [destruct Hx|]. cbn [map seqok lay] in H. destruct H as [H1 [H2 H3]].
        destruct Hx as [->|Hx]; [lia|]. specialize (IH _ H3 x Hx). lia. }
      specialize (HG _ _ Hs g Hg). lia.
  - rewrite bit_at_app_r by lia. rewrite S2 by lia.
    assert (E : field_bit false (8 * p + j) false f = false).
    { unfold field_bit. destruct (field_source false f); auto. replace ((f_off f <=? 8 * p + j) && (8 * p + j <? f_off f + f_width f)) with false by lia. auto. }
    rewrite E. f_equal. lia.
Qed.

Lemma render_bytes : forall h, wf_hdr false h -> Forall (fun f => f_width f mod 8 = 0) (h_fields h) ->
  seqok (map lay (h_fields h)) 0 -> sumw (h_fields h) = 8 * h_size h -> render [h] = flat_map fbytes (h_fields h).
Proof.
  intros h H Hm Hs Hz. destruct (render_spec [h] ltac:(auto)) as [L1 [O1 S1]]. destruct H as [Hn Hf].
  destruct (bytes_seq (h_size h) (h_fields h) 0 Hf Hm Hs ltac:(lia)) as [L2 [O2 S2]].
  rewrite stack_size_cons in L1. change (stack_size []) with 0 in L1.
  apply buf_ext; auto; [unfold zlen in *; lia|]. intros i Hi. rewrite S1 by lia. cbn [stack_bit]. rewrite S2 by lia. reflexivity.
Qed.

Lemma bit_at_zeros : forall n i, bit_at (repeat 0 n) i = false.
Proof. intros n i. pose proof (bit_at_balloc (Z.of_nat n) i) as H. unfold balloc in H. rewrite Nat2Z.id in H. auto. Qed.

(** *** A field that shares no bit with another *)
Definition lone (h : hdr) (j : nat) (f : field) : Prop :=
  nth_error (h_fields h) j = Some f /\
  forall i g, i <> j -> nth_error (h_fields h) i = Some g -> f_off g + f_width g <= f_off f \/ f_off f + f_width f <= f_off g.

Lemma lone_split : forall h j f, lone h j f -> exists A B, h_fields h = A ++ f :: B /\ length A = j /\
  forall g, In g (A ++ B) -> f_off g + f_width g <= f_off f \/ f_off f + f_width f <= f_off g.
Proof.
  intros h j f [H1 H2]. destruct (nth_error_split _ _ H1) as [A [B [E L]]]. exists A, B. split; [auto|split; [auto|]].
  intros g Hg. apply in_app_or in Hg. destruct Hg as [Hg|Hg]; apply In_nth_error in Hg; destruct Hg as [i Hi].
  - assert (i < length A)%nat by (apply nth_error_Some; congruence). apply (H2 i g); [lia|]. rewrite E, nth_error_app1; auto.
  - apply (H2 (S (length A) + i)%nat g); [lia|]. rewrite E, nth_error_app2 by lia. replace (S (length A) + i - length A)%nat with (S i) by lia. auto.
Qed.

Lemma lone_bit : forall h j f i, lone h j f -> f_off f <= i < f_off f + f_width f ->
  hdr_bit (h_fields h) false i false = field_bit false i false f.
Proof.
  intros h j f i Hl Hi. destruct (lone_split _ _ _ Hl) as [A [B [E [_ HN]]]]. rewrite E, hdr_bit_app.
  rewrite (hdr_bit_miss A) by (intros g Hg; right; specialize (HN g (in_or_app _ _ _ (or_introl Hg))); lia).
  unfold hdr_bit. cbn [fold_left]. fold (hdr_bit B false i (field_bit false i false f)).
  apply hdr_bit_miss. intros g Hg; right; specialize (HN g (in_or_app _ _ _ (or_intror Hg))); lia.
Qed.

(** Its bytes inside the header *)
Lemma lone_bytes : forall h j f, wf_hdr false h -> lone h j f -> f_off f mod 8 = 0 -> f_width f mod 8 = 0 ->
  0 <= f_off f -> f_off f + f_width f <= 8 * h_size h ->
  slice (render [h]) (Z.to_nat (f_off f / 8)) (Z.to_nat (f_width f / 8)) = fbytes f.
Proof.
  intros h j f Hw Hl Ho Hm H0 H1. destruct (render_spec [h] ltac:(auto)) as [L1 [O1 S1]].
  rewrite stack_size_cons in L1. change (stack_size []) with 0 in L1.
  assert (Hf : wf_src false (h_size h) f). { destruct Hw as [_ Hf]. rewrite Forall_forall in Hf. apply Hf. destruct Hl as [Hl _]. eapply nth_error_In; eauto. }
  destruct (fbytes_spec _ f Hf Hm) as [L2 [O2 S2]].
  assert (0 <= f_width f) by apply Hf.
  assert (Ls : length (slice (render [h]) (Z.to_nat (f_off f / 8)) (Z.to_nat (f_width f / 8))) = Z.to_nat (f_width f / 8)).
  { unfold slice. rewrite firstn_length, skipn_length. unfold zlen in *. lia. }
  apply buf_ext; [apply slice_ok; auto|auto|unfold zlen in *; lia|]. intros i Hi. unfold zlen in Hi. rewrite Ls in Hi.
  rewrite bit_at_slice by (unfold zlen in *; lia). rewrite S1 by lia. cbn [stack_bit]. rewrite S2 by lia.
  rewrite (lone_bit h j f) by (auto; lia). f_equal. lia.
Qed.

(** Giving it a value *)
Lemma set_lone : forall h j f h' v, wf_hdr false h -> wf_hdr false h' -> lone h j f -> field_data f = None ->
  f_off f mod 8 = 0 -> f_width f = 8 * zlen v -> 0 <= f_off f -> f_off f + f_width f <= 8 * h_size h -> bytes_ok v ->
  h_size h' = h_size h -> h_fields h' = upd (h_fields h) j (set_val (Some v) f) ->
  exists pre post, render [h] = pre ++ repeat 0 (length v) ++ post /\ render [h'] = pre ++ v ++ post /\
    length pre = Z.to_nat (f_off f / 8).
Proof.
  intros h j f h' v Hw Hw' Hl Hd Ho Hv H0 H1 Hb Hsz Hfs.
  destruct (render_spec [h] ltac:(auto)) as [L1 [O1 S1]]. destruct (render_spec [h'] ltac:(auto)) as [L2 [O2 S2]].
  rewrite stack_size_cons in L1, L2. change (stack_size []) with 0 in L1, L2.
  destruct (lone_split _ _ _ Hl) as [A [B [E [LA HN]]]].
  assert (E' : h_fields h' = A ++ set_val (Some v) f :: B). { rewrite Hfs, E, <- LA. clear. induction A; cbn [app upd length]; congruence. }
  set (o := Z.to_nat (f_off f / 8)). set (n := length v).
  assert (Hlone' : lone h' j (set_val (Some v) f)).
  { split; [rewrite Hfs; destruct Hl as [Hn _]; rewrite nth_error_upd, Nat.eqb_refl; replace (j <? length (h_fields h))%nat with true; auto; symmetry; apply Nat.ltb_lt; apply nth_error_Some; congruence|].
    intros i g Hi Hg. rewrite Hfs, nth_error_upd in Hg. destruct (Nat.eqb_spec i j); [contradiction|]. destruct Hl as [_ Hl]. apply (Hl i g); auto. }
  assert (HO : forall i, ~ (f_off f <= i < f_off f + f_width f) -> hdr_bit (h_fields h') false i false = hdr_bit (h_fields h) false i false).
  { intros i Hi. rewrite E, E', !hdr_bit_app. unfold hdr_bit. cbn [fold_left]. f_equal. unfold field_bit. cbn [set_val f_off f_width].
    replace ((f_off f <=? i) && (i <? f_off f + f_width f)) with false by lia. destruct (field_source false f); destruct (field_source false (set_val (Some v) f)); auto. }
  assert (HI : forall i, f_off f <= i < f_off f + f_width f -> hdr_bit (h_fields h) false i false = false).
  { intros i Hi. rewrite (lone_bit h j f) by auto. unfold field_bit. rewrite field_data_source, Hd. auto. }
  assert (HV : forall i, f_off f <= i < f_off f + f_width f -> hdr_bit (h_fields h') false i false = bit_at v (i - f_off f)).
  { intros i Hi. rewrite (lone_bit h' j (set_val (Some v) f)) by auto. unfold field_bit. cbn [field_source set_val f_val f_off f_width].
    replace ((f_off f <=? i) && (i <? f_off f + f_width f)) with true by lia. f_equal. lia. }
  assert (Z1 : Z.of_nat n = zlen v) by reflexivity.
  assert (Z2 : Z.of_nat o = f_off f / 8) by (unfold o; lia).
  exists (firstn o (render [h])), (skipn (o + n) (render [h])).
  assert (Lo : length (firstn o (render [h])) = o) by (rewrite firstn_length; unfold zlen in *; lia).
  assert (Bf : forall i, 0 <= i < 8 * Z.of_nat o -> bit_at (firstn o (render [h])) i = bit_at (render [h]) i).
  { intros i Hi. change (firstn o (render [h])) with (slice (render [h]) 0 o). rewrite bit_at_slice by (unfold zlen in *; lia). f_equal. }
  assert (Of : bytes_ok (firstn o (render [h]))) by (apply (slice_ok _ 0 o); auto).
  assert (Os : bytes_ok (skipn (o + n) (render [h]))).
  { unfold bytes_ok in *. rewrite Forall_forall in *. intros x Hx. apply O1. rewrite <- (firstn_skipn (o + n) (render [h])). apply in_or_app. auto. }
  assert (Lk : zlen (skipn (o + n) (render [h])) = h_size h - Z.of_nat o - Z.of_nat n) by (rewrite zlen_skipn_n; lia).
  assert (Zf : zlen (firstn o (render [h])) = Z.of_nat o) by (unfold zlen; lia).
  split; [|split; [|exact Lo]].
  - apply buf_ext; [auto|rewrite !bytes_ok_app; split; [auto|split; [apply bytes_ok_repeat; unfold byte_ok; lia|auto]]| |].
    + rewrite !app_length, repeat_length. fold n. unfold zlen in *. lia.
    + intros i Hi. rewrite S1 by lia. cbn [stack_bit]. destruct (Z.ltb_spec i (8 * Z.of_nat o)).
      * rewrite bit_at_app_l by lia. rewrite Bf by lia. rewrite S1 by lia. reflexivity.
      * rewrite bit_at_app_r by lia. rewrite Zf. destruct (Z.ltb_spec i (8 * (Z.of_nat o + Z.of_nat n))).
        -- rewrite bit_at_app_l by (rewrite zlen_repeat; lia). rewrite HI by lia.
           symmetry. rewrite bit_at_zeros. auto.
        -- rewrite bit_at_app_r by (rewrite zlen_repeat; lia). rewrite skipn_bit by (rewrite zlen_repeat; lia). rewrite S1 by (rewrite zlen_repeat; lia).
           rewrite zlen_repeat. cbn [stack_bit]. f_equal. lia.
  - apply buf_ext; [auto|rewrite !bytes_ok_app; auto| |].
    + rewrite !app_length. fold n. unfold zlen in *. lia.
    + intros i Hi. rewrite S2 by lia. cbn [stack_bit]. destruct (Z.ltb_spec i (8 * Z.of_nat o)).
      * rewrite bit_at_app_l by lia. rewrite Bf by lia. rewrite S1 by lia. cbn [stack_bit]. apply HO. lia.
      * rewrite bit_at_app_r by lia. rewrite Zf. destruct (Z.ltb_spec i (8 * (Z.of_nat o + Z.of_nat n))).
        -- rewrite bit_at_app_l by lia. rewrite HV by lia. f_equal. lia.
        -- rewrite bit_at_app_r by lia. rewrite skipn_bit by lia. rewrite S1 by lia. cbn [stack_bit]. rewrite HO by lia. f_equal. lia.
Qed.

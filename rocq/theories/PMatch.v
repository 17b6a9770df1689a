(** Lemmas about matching (C18-C20) and template layout (C14). *)

From Verif Require Export PFrame.

(** ** Comparison *)

Lemma land_bits : forall x e m, byte_ok x -> byte_ok e -> byte_ok m ->
  (Z.land x m = Z.land e m <-> forall k, 0 <= k < 8 -> Z.testbit m k = true -> Z.testbit x k = Z.testbit e k).
Proof.
  intros x e m Hx He Hm. split.
  - intros H k Hk Ht. assert (E : Z.testbit (Z.land x m) k = Z.testbit (Z.land e m) k) by congruence.
    rewrite !Z.land_spec, Ht, !andb_true_r in E. auto.
  - intros H. apply Z.bits_inj'. intros n Hn. rewrite !Z.land_spec.
    destruct (Z.testbit m n) eqn:Et; [|rewrite !andb_false_r; auto]. rewrite !andb_true_r.
    destruct (Z.ltb_spec n 8) as [Hl|Hl]; [apply H; auto; lia|].
    unfold byte_ok in *. rewrite <- (Z.mod_small m (2 ^ 8)) in Et by (cbn; lia).
    rewrite Z.mod_pow2_bits_high in Et by lia. discriminate.
Qed.

Definition mask_byte (mask : buf) (i : Z) : Z := if zlen mask <=? i then 255 else nth (Z.to_nat i) mask 0.

Lemma mask_loop_spec : forall a i exp mask, 0 <= i -> zlen exp = i + zlen a ->
  exists r, mask_loop a i exp mask = Ret r /\
  (r = true <-> forall k, (k < length a)%nat ->
     Z.land (nth k a 0) (mask_byte mask (i + Z.of_nat k)) =
     Z.land (nth (Z.to_nat i + k) exp 0) (mask_byte mask (i + Z.of_nat k))).
Proof.
  induction a as [|x a IH]; intros i exp mask Hi Hl; cbn [mask_loop].
  - exists true. split; auto. split; auto. intros _ k Hk. cbn in Hk. lia.
  - rewrite zlen_cons in Hl. pose proof (zlen_nonneg _ a). rewrite bget_ok by lia. cbn [bind].
    assert (E : (if zlen mask <=? i then Ret 255 else bget mask i) = Ret (mask_byte mask i)).
    { unfold mask_byte. destruct (Z.leb_spec (zlen mask) i); auto. apply bget_ok. lia. }
    rewrite E. cbn [bind].
    destruct (Z.eqb_spec (Z.land x (mask_byte mask i)) (Z.land (nth (Z.to_nat i) exp 0) (mask_byte mask i))) as [Eq|Ne].
    + destruct (IH (i + 1) exp mask ltac:(lia) ltac:(lia)) as [r [Er Hr]]. exists r. split; auto. rewrite Hr. split.
      * intros H1 [|k] Hk.
        -- rewrite Z.add_0_r, Nat.add_0_r. exact Eq.
        -- cbn [length] in Hk. specialize (H1 k ltac:(lia)). cbn [nth].
           replace (i + Z.of_nat (S k)) with (i + 1 + Z.of_nat k) by lia.
           replace (Z.to_nat i + S k)%nat with (Z.to_nat (i + 1) + k)%nat by lia. exact H1.
      * intros H1 k Hk. specialize (H1 (S k) ltac:(cbn [length]; lia)). cbn [nth] in H1.
        replace (i + 1 + Z.of_nat k) with (i + Z.of_nat (S k)) by lia.
        replace (Z.to_nat (i + 1) + k)%nat with (Z.to_nat i + S k)%nat by lia. exact H1.
    + exists false. split; auto. split; [discriminate|]. intros H1. exfalso. apply Ne.
      specialize (H1 O ltac:(cbn [length]; lia)). rewrite Z.add_0_r, Nat.add_0_r in H1. exact H1.
Qed.

Lemma forallb_combine_eq : forall a b : list Z, length a = length b ->
  (forallb (fun p => fst p =? snd p) (combine a b) = true <-> a = b).
Proof.
  induction a as [|x a IH]; intros [|y b] H; cbn in *; try discriminate; [tauto|].
  rewrite andb_true_iff, IH by lia. rewrite Z.eqb_eq. split; [intros [-> ->]; auto|]. intros E. inversion E. auto.
Qed.

Lemma bit_at_byte : forall b n k, 0 <= k < 8 -> bit_at b (8 * Z.of_nat n + (7 - k)) = Z.testbit (nth n b 0) k.
Proof.
  intros b n k Hk. unfold bit_at.
  assert (E1 : (8 * Z.of_nat n + (7 - k)) / 8 = Z.of_nat n) by lia.
  assert (E2 : 7 - (8 * Z.of_nat n + (7 - k)) mod 8 = k) by lia.
  rewrite E1, E2, Nat2Z.id. auto.
Qed.

Lemma bit_index : forall i, 0 <= i -> exists n k, i = 8 * Z.of_nat n + (7 - k) /\ 0 <= k < 8.
Proof. intros i Hi. exists (Z.to_nat (i / 8)), (7 - i mod 8). lia. Qed.

Lemma mask_byte_bits : forall m n k, bytes_ok m -> 0 <= k < 8 ->
  (Z.testbit (mask_byte m (Z.of_nat n)) k = true <-> compared (Some m) (8 * Z.of_nat n + (7 - k))).
Proof.
  intros m n k Hm Hk. unfold mask_byte, compared. rewrite bit_at_byte by auto.
  destruct (Z.leb_spec (zlen m) (Z.of_nat n)) as [H|H]; unfold zlen in H.
  - split; [intros _; left; lia|]. intros _.
    assert (k = 0 \/ k = 1 \/ k = 2 \/ k = 3 \/ k = 4 \/ k = 5 \/ k = 6 \/ k = 7) as D by lia.
    destruct D as [->|[->|[->|[->|[->|[->|[->| -> ]]]]]]]; reflexivity.
  - rewrite Nat2Z.id. split; [auto|]. intros [H1|H1]; auto. lia.
Qed.

Lemma bequal_spec : forall rx exp mask,
  Forall is_byte rx -> Forall is_byte exp -> (forall m, mask = Some m -> Forall is_byte m) ->
  exists r, bequal_mask rx exp mask 0 = Ret r /\
  (r = true <-> length rx = length exp /\
     forall i, 0 <= i < 8 * Z.of_nat (length exp) -> compared mask i -> bit_at rx i = bit_at exp i).
Proof.
  intros rx exp mask Hr He Hm. apply is_byte_bytes in Hr, He. unfold bequal_mask. cbn [Z.ltb Z.compare].
  rewrite Z.add_0_r. destruct (Z.eqb_spec (zlen rx) (zlen exp)) as [El|El]; cbn [negb].
  2:{ exists false. split; auto. split; [discriminate|]. intros [H _]. unfold zlen in El. lia. }
  assert (Hl : length rx = length exp) by (unfold zlen in El; lia).
  destruct mask as [m|].
  - specialize (Hm m eq_refl). apply is_byte_bytes in Hm.
    destruct (mask_loop_spec rx 0 exp m ltac:(lia) ltac:(lia)) as [r [Er Hs]]. exists r. split; auto. rewrite Hs.
    cbn [Z.to_nat Nat.add].
    assert (Hmb : forall n, byte_ok (mask_byte m (Z.of_nat n))).
    { intros n. unfold mask_byte. destruct (_ <=? _); [unfold byte_ok; lia|apply bytes_ok_nth; auto]. }
    split.
    + intros H. split; auto. intros i Hi Hc. destruct (bit_index i ltac:(lia)) as [n [k [-> Hk]]].
      rewrite !bit_at_byte by auto. specialize (H n ltac:(lia)). rewrite Z.add_0_l in H.
      rewrite land_bits in H by (auto; apply bytes_ok_nth; auto). apply H; auto.
      apply mask_byte_bits; auto.
    + intros [_ H] n Hn. rewrite Z.add_0_l. rewrite land_bits by (auto; apply bytes_ok_nth; auto).
      intros k Hk Ht. rewrite <- !bit_at_byte by auto. apply H; [lia|]. apply mask_byte_bits; auto.
  - unfold memcmp_eq. replace ((zlen rx <? zlen rx) || (zlen exp <? zlen rx)) with false by lia.
    eexists. split; [reflexivity|]. unfold zlen. rewrite Nat2Z.id. rewrite firstn_all, Hl, firstn_all.
    rewrite forallb_combine_eq by auto. split.
    + intros ->. split; auto.
    + intros [_ H]. apply buf_ext; auto. intros i Hi. apply H; [unfold zlen in *; lia|exact I].
Qed.

(** C18 *)
Lemma ignored_field_matches : forall f f' b m k h fl rx,
  frame_to_buf f = Ret (f', b) -> frame_mask_to_buf f' = Ret m ->
  Forall well_formed_mask (fr_stack f') ->
  nth_error (fr_stack f') k = Some h -> In fl (h_fields h) -> within h fl ->
  (forall g, In g (h_fields h) -> f_skip g = false -> ~ overlap fl g) ->
  Forall is_byte rx -> length rx = length b ->
  (forall i, 0 <= i < 8 * Z.of_nat (length b) ->
     ~ (8 * start_of (fr_stack f') k + f_off fl <= i < 8 * start_of (fr_stack f') k + f_off fl + f_width fl) ->
     bit_at rx i = bit_at b i) ->
  bequal_mask rx b (Some m) 0 = Ret true.
Proof.
  intros f f' b m k h fl rx Hb Hm Hwf Hk Hfl Hin Hov Hrx Hl Heq.
  pose proof (emitted_length _ _ _ Hb) as Lb. pose proof (emitted_bytes _ _ _ Hb) as Ob.
  destruct (mask_bits _ _ Hm Hwf) as [Lm [Om [Hones Hbits]]].
  destruct (bequal_spec rx b (Some m) Hrx Ob) as [r [Er Hr]]; [intros m' E; apply some_inj in E; subst; auto|].
  rewrite Er. f_equal. apply Hr. split; auto. intros i Hi Hc. apply Heq; auto. intros Hin2.
  destruct Hc as [Hc|Hc]; [lia|].
  destruct Hin as [H1 [H2 H3]].
  specialize (Hbits k h (i - 8 * start_of (fr_stack f') k) Hk ltac:(lia)).
  replace (8 * start_of (fr_stack f') k + (i - 8 * start_of (fr_stack f') k)) with i in Hbits by lia.
  apply Hbits in Hc. destruct Hc as [g [Hg1 [Hg2 Hg3]]].
  apply (Hov g Hg1 Hg2). unfold overlap. lia.
Qed.

(** C20 *)
Lemma padding_other_length : forall rx exp mask n, length rx <> (length exp + n)%nat ->
  bequal_mask rx exp mask (Z.of_nat n) = Ret false.
Proof.
  intros rx exp mask n H. unfold bequal_mask. replace (Z.of_nat n <? 0) with false by lia.
  replace (zlen rx =? zlen exp + Z.of_nat n) with false by (unfold zlen; lia). reflexivity.
Qed.

Lemma padding_reads_outside : forall rx exp n, (0 < n)%nat -> length rx = (length exp + n)%nat ->
  bequal_mask rx exp None (Z.of_nat n) = Crash OOB_read.
Proof.
  intros rx exp n Hn H. unfold bequal_mask. replace (Z.of_nat n <? 0) with false by lia.
  replace (zlen rx =? zlen exp + Z.of_nat n) with true by (unfold zlen; lia). cbn [negb].
  unfold memcmp_eq. replace ((zlen rx <? zlen rx) || (zlen exp <? zlen rx)) with true by (unfold zlen; lia). reflexivity.
Qed.

(** ** Layout of the templates *)

Fixpoint tiledb (fs : list field) (p : Z) : option Z :=
  match fs with
  | [] => Some p
  | f :: r =>
      if f_width f <? 0 then None
      else if f_off f =? p then tiledb r (p + f_width f)
      else if (0 <? f_off f) && (f_off f + f_width f <=? p) then tiledb r p
      else None
  end.

Lemma tiledb_sound : forall fs p e, tiledb fs p = Some e -> tiled fs p e.
Proof.
  induction fs as [|f r IH]; intros p e H; cbn [tiledb] in H.
  - apply some_inj in H. subst. constructor.
  - destruct (Z.ltb_spec (f_width f) 0); [discriminate|]. destruct (Z.eqb_spec (f_off f) p).
    + apply tl_next; auto.
    + destruct ((0 <? f_off f) && (f_off f + f_width f <=? p)) eqn:E; [|discriminate]. apply tl_overlay; auto; lia.
Qed.

(** Decision procedure, used on concrete stacks. *)
Definition withinb (h : hdr) (f : field) : bool :=
  (0 <=? f_off f) && (0 <=? f_width f) && (f_off f + f_width f <=? 8 * h_size h).

Definition byteb (x : Z) : bool := (0 <=? x) && (x <? 256).

Definition well_formedb (h : hdr) : bool :=
  (0 <=? h_size h) &&
  forallb (fun f => (0 <=? f_width f) && (f_width f <=? 8 * h_size h) &&
    match field_data f with
    | None => true
    | Some v => (f_width f =? 0) || (withinb h f && (f_width f <=? 8 * zlen v) && forallb byteb v && (zlen v <? 2 ^ 60))
    end) (h_fields h).

Lemma forallb_bytes : forall v, forallb byteb v = true -> Forall is_byte v.
Proof.
  intros v H. rewrite forallb_forall in H. apply Forall_forall. intros x Hx. specialize (H x Hx).
  unfold byteb, is_byte in *. lia.
Qed.

Lemma well_formedb_sound : forall h, well_formedb h = true -> well_formed h.
Proof.
  intros h H. unfold well_formedb in H. apply andb_true_iff in H. destruct H as [H1 H2].
  split; [lia|]. intros f Hf. rewrite forallb_forall in H2. specialize (H2 f Hf).
  apply andb_true_iff in H2. destruct H2 as [H2 H3]. split; [lia|].
  intros v Hv. rewrite Hv in H3. apply orb_true_iff in H3. destruct H3 as [H3|H3]; [left; lia|]. right.
  unfold withinb, zlen in *. repeat rewrite andb_true_iff in H3. destruct H3 as [[[H3 H4] H5] H6].
  split; [unfold within; lia|]. split; [lia|]. split; [apply forallb_bytes; auto|lia].
Qed.

Definition well_formed_maskb (h : hdr) : bool :=
  (0 <=? h_size h) &&
  forallb (fun f => (0 <=? f_width f) && (f_width f <=? 8 * h_size h) &&
    (f_skip f || (f_width f =? 0) || withinb h f)) (h_fields h).

Lemma well_formed_maskb_sound : forall h, well_formed_maskb h = true -> well_formed_mask h.
Proof.
  intros h H. unfold well_formed_maskb in H. apply andb_true_iff in H. destruct H as [H1 H2].
  split; [lia|]. intros f Hf. rewrite forallb_forall in H2. specialize (H2 f Hf).
  apply andb_true_iff in H2. destruct H2 as [H2 H3]. split; [lia|].
  intros Hs. rewrite Hs in H3. cbn [orb] in H3. unfold withinb, within in *. lia.
Qed.

Lemma forallb_Forall : forall A (p : A -> bool) (P : A -> Prop) l, (forall x, p x = true -> P x) ->
  forallb p l = true -> Forall P l.
Proof. intros A p P l Hp H. rewrite forallb_forall in H. apply Forall_forall. auto. Qed.

Definition layoutb (h : hdr) : bool :=
  match tiledb (h_fields h) 0 with
  | Some e => (if 0 <? e then h_size h =? (e + 7) / 8 else h_size h <=? 1) && (0 <=? h_size h)
              && forallb (withinb h) (h_fields h)
  | None => false
  end.

Lemma templates_layout : forallb layoutb hdr_tmpls = true.
Proof. vm_compute. reflexivity. Qed.

Lemma layoutb_sound : forall h, layoutb h = true ->
  exists e, tiled (h_fields h) 0 e /\ (0 < e -> h_size h = (e + 7) / 8) /\ (e = 0 -> 0 <= h_size h <= 1) /\
    forall f, In f (h_fields h) -> within h f.
Proof.
  intros h H. unfold layoutb in H. destruct (tiledb (h_fields h) 0) as [e|] eqn:E; [|discriminate].
  apply tiledb_sound in E. repeat rewrite andb_true_iff in H. destruct H as [[H1 H2] H3]. exists e. split; [auto|].
  split; [|split].
  - intros He. replace (0 <? e) with true in H1 by lia. lia.
  - intros ->. cbn in H1. lia.
  - intros f Hf. rewrite forallb_forall in H3. specialize (H3 f Hf). unfold withinb, within in *. lia.
Qed.

Lemma templates_tiled : forall h, In h hdr_tmpls ->
  exists e, tiled (h_fields h) 0 e /\ (0 < e -> h_size h = (e + 7) / 8) /\ (e = 0 -> 0 <= h_size h <= 1) /\
    forall f, In f (h_fields h) -> within h f.
Proof.
  intros h Hh. apply layoutb_sound. pose proof templates_layout as H. rewrite forallb_forall in H. auto.
Qed.

Lemma mask_loop_beyond : forall a i exp mask, 0 <= i <= zlen exp -> zlen exp < i + zlen a ->
  mask_loop a i exp mask <> Ret true.
Proof.
  induction a as [|x a IH]; intros i exp mask Hi Hl H; cbn [mask_loop] in H.
  - rewrite zlen_nil in Hl. lia.
  - binv H. binv H. destruct (Z.land x a1 =? Z.land a0 a1); [|discriminate].
    apply bget_inv in E. rewrite zlen_cons in Hl. apply (IH (i + 1) exp mask); auto; lia.
Qed.

Lemma padding_never_matches : forall rx exp mask n, (0 < n)%nat ->
  bequal_mask rx exp mask (Z.of_nat n) <> Ret true.
Proof.
  intros rx exp mask n Hn H. unfold bequal_mask in H. replace (Z.of_nat n <? 0) with false in H by lia.
  destruct (Z.eqb_spec (zlen rx) (zlen exp + Z.of_nat n)) as [E|E]; cbn [negb] in H; [|discriminate].
  destruct mask as [m|].
  - pose proof (zlen_nonneg _ exp). apply mask_loop_beyond in H; auto; lia.
  - unfold memcmp_eq in H. replace ((zlen rx <? zlen rx) || (zlen exp <? zlen rx)) with true in H by lia. discriminate.
Qed.

(** Frames of parts are emitted (C82): the fields. *)

From Verif Require Import PTextIp PTextNum PTextHex PTextMac PTextAddr Frame PSer SpecParse PParse PMatch SpecFrame PFrame PInv PStep PArgs PSoft PFill PGroup PAll PSafe PAssign PField SpecOrigin POrigin PImage PSum PEmit SpecFill PCheck PCheck2 PLen PKeep PTwice PCoap PSegs PWords SpecLayout PLayout Cmd Exec SpecExec PCmd PPair PExec PReplay SpecWhole PWhole SpecExact PExact SpecForm PForm PForm2 PForm3 PForm4.

(** *** Headers with one field of variable width *)
Definition seq_chk (t : hdr) : bool :=
  varhdr t && value_fill (h_fill t) &&
  forallb (fun ft => is_worked_out (h_name t) (f_name ft) ||
    (negb (existsb (String.eqb (f_name ft)) (autos (h_fill t))) &&
     match find_field t (f_name ft) with
     | Some g => match f_def g with
                 | Some v => negb (isv t g) && (positional 256 v mod 2 ^ f_width g =? preset_value (h_name t) (f_name ft))
                 | None => preset_value (h_name t) (f_name ft) =? 0
                 end
     | None => false
     end)) (h_fields t).

Lemma layout_seq : forall f f' b k t h h' fld off w, emitting f f' b k t h h' -> seq_chk t = true -> place (fmt (h_fields h)) fld = Some (off, w) -> laid_ok f' b k h fld off w.
Proof.
  intros f f' b k t h h' fld off w E HC Hp. pose proof (e_inv _ _ _ _ _ _ _ E) as I. unfold seq_chk in HC. rewrite !andb_true_iff in HC. destruct HC as [[C1 C2] C3].
  destruct (i_var _ _ I C1) as [J1 [J2 _]]. destruct (seq_at_place _ _ _ _ J1 Hp) as [P1 [P2 [P3 P4]]].
  destruct (seq_place _ _ _ _ _ J1 Hp) as [j [f0 [Q1 [Q2 [Q3 [Q4 _]]]]]]. destruct (index_of_find _ _ _ Q1) as [f1 [Q5 [Hfl Q6]]]. assert (f1 = f0) by congruence. subst f1. change (find_field h fld = Some f0) in Hfl.
  destruct (find_field t fld) as [ft|] eqn:Eft; [|rewrite (inv_find_none _ _ _ I Eft) in Hfl; discriminate].
  destruct (inv_find _ _ _ _ I Eft) as [f1 [Hf1 Hs]]. assert (f1 = f0) by congruence. subst f1.
  destruct (find_field_in _ _ _ Eft) as [Hin Hn]. rewrite forallb_forall in C3. specialize (C3 _ Hin). rewrite Hn, Eft in C3. rewrite <- (i_name _ _ I) in C3.
  eapply (laid_finish f f' b k t h h' h fld off w f0 E); auto; try lia.
  - apply (filled_keeps f f' b k t); auto.
  - unfold value_of. rewrite Hfl. reflexivity.
  - apply (filled_settled f f' b k t); auto. intros Hw Hi. rewrite Hw in C3. cbn [orb] in C3. apply andb_true_iff in C3. destruct C3 as [C3 _]. apply negb_true_iff in C3.
    assert (existsb (String.eqb fld) (autos (h_fill t)) = true) by (apply existsb_exists; exists fld; split; [auto|apply String.eqb_refl]). congruence.
  - intros Hw. rewrite Hw in C3. cbn [orb] in C3. apply andb_true_iff in C3. destruct C3 as [_ C3]. rewrite (inv_def _ _ _ _ I Hfl), Eft.
    destruct (f_def ft) as [v|]; [|lia]. apply andb_true_iff in C3. destruct C3 as [C3 C4]. apply negb_true_iff in C3.
    assert (EW : f_width f0 = f_width ft). { pose proof (fsig_isv _ _ _ Hs) as B. rewrite C3 in B. unfold fsig in Hs. rewrite C3, B in Hs. congruence. }
    rewrite <- Q4, EW. lia.
Qed.

Lemma seq_coap : seq_chk HDR_COAP = true.
Proof. vm_compute. reflexivity. Qed.
Lemma seq_pnet : seq_chk HDR_PNET_RTC = true.
Proof. vm_compute. reflexivity. Qed.

(** *** What a form covers *)
Record covers_part (n : string) (m : format) : Prop := MkCoversPart {
  cp_bits : bits m mod 8 = 0;
  cp_pos : 0 <= bits m;
  cp_in : forall fld off w, place m fld = Some (off, w) -> 0 <= off /\ 0 < w /\ off + w <= bits m;
  cp_all : forall i, 0 <= i < bits m -> exists fld off w, place m fld = Some (off, w) /\ off <= i < off + w;
  cp_sum : forall off w, place m "chksum" = Some (off, w) -> w = 16 /\
    ((n = "ipv4"%string /\ off = 80) \/ (n = "udp"%string /\ off = 48) \/ (n = "tcp"%string /\ off = 128) \/ (In n ["icmp"; "igmp"; "mld"]%string /\ off = 16)) }.

Lemma covers_more : forall n m, nodupb (map fst m) = true -> forallb (fun q => 0 <? snd q) m = true -> bits m mod 8 = 0 ->
  (forall off w, place m "chksum" = Some (off, w) -> w = 16 /\ In n ["icmp"; "igmp"; "mld"]%string /\ off = 16) -> covers_part n m.
Proof.
  intros n m C1 C2 C3 C4. constructor; auto.
  - apply bits_nonneg; auto.
  - intros fld off w HP. pose proof (place_inside m 0 fld off w C2 HP). lia.
  - intros i Hi. destruct (place_covers m 0 i) as [fld [off [w [K1 K2]]]]; auto; [apply nodupb_spec; auto|]. exists fld, off, w. split; [auto|lia].
  - intros off w HP. destruct (C4 _ _ HP) as [K1 [K2 K3]]. split; [auto|]. tauto.
Qed.

Lemma form_covers : forall n asg m, form (Header n asg) m -> covers_part n m.
Proof.
  intros n asg m HF. remember (Header n asg) as p eqn:Ep.
  destruct HF as [n0 a0 m Hn Hc|a0 s d Hg Hd Hl|a0|a0 Hq|a0|a0 s d Hg Hd|a0 Hg|p d Hr].
  - assert (n0 = n) by congruence. subst n0. destruct (format_covered _ _ Hn) as [C1 C2 C3 C4 C5]. constructor; auto. intros off w HP. destruct (C5 off w HP) as [K1 K2]. split; [auto|]. cbn [In]. destruct K2 as [K2|[K2|[K2|[-> K2]]]]; auto 8.
  - apply covers_more.
    + reflexivity.
    + cbn [coap_form forallb snd]. rewrite !andb_true_iff. repeat split; try reflexivity. lia.
    + unfold bits, coap_form. cbn [fold_right snd]. lia.
    + intros off w HP. discriminate HP.
  - assert (n = "igmp"%string) by congruence. subst n. apply covers_more; [destruct (reports a0), (queries a0); reflexivity|destruct (reports a0), (queries a0); reflexivity|destruct (reports a0), (queries a0); reflexivity|].
    intros off w HP. cbn in HP. apply some_inj in HP. apply pair_inj in HP. cbn [In]. repeat split; try lia. tauto.
  - assert (n = "mld"%string) by congruence. subst n. apply covers_more; [destruct (reports a0), (queries a0); reflexivity|destruct (reports a0), (queries a0); reflexivity|destruct (reports a0), (queries a0); reflexivity|].
    intros off w HP. cbn in HP. apply some_inj in HP. apply pair_inj in HP. cbn [In]. repeat split; try lia. tauto.
  - apply covers_more; [destruct (redbox a0); reflexivity|destruct (redbox a0); reflexivity|destruct (redbox a0); reflexivity|]. intros off w HP. destruct (redbox a0); discriminate HP.
  - apply covers_more.
    + reflexivity.
    + cbn [rtc_form forallb snd]. rewrite !andb_true_iff. repeat split; try reflexivity. lia.
    + unfold bits, rtc_form. cbn [fold_right snd]. lia.
    + intros off w HP. discriminate HP.
  - apply covers_more; try reflexivity. intros off w HP. discriminate HP.
  - subst p. inversion Hr.
Qed.

Lemma form_whole : forall p m, form p m -> bits m mod 8 = 0 /\ 0 <= bits m.
Proof.
  intros [n asg|ps|num ps|ps] m HF; [destruct (form_covers _ _ _ HF); auto| | |]; inversion HF; subst; unfold bits; cbn [fold_right snd]; lia.
Qed.

Lemma total_ok : forall its, Forall well_put its -> 0 <= total its /\ total its mod 8 = 0.
Proof.
  induction its as [|[p m] its IH]; intros H; [unfold total; cbn [fold_right]; split; [lia|reflexivity]|]. destruct (IH (Forall_inv_tail H)) as [I1 I2].
  destruct (Forall_inv H) as [HF _]. cbn [fst snd] in HF. destruct (form_whole _ _ HF). unfold total in *. cbn [fold_right snd]. lia.
Qed.

Lemma begins_bits : forall its k, Forall well_put its -> total (firstn k its) = 8 * begins its k /\ 0 <= begins its k /\ 8 * begins its k <= total its.
Proof.
  intros its k H. pose proof (well_firstn _ H k) as H1.
  assert (H2 : Forall well_put (skipn k its)) by (rewrite Forall_forall in *; intros x Hx; apply H; rewrite <- (firstn_skipn k its); apply in_or_app; auto).
  destruct (total_ok _ H1) as [A1 A2]. destruct (total_ok _ H2) as [B1 B2]. pose proof (total_app (firstn k its) (skipn k its)) as E. rewrite firstn_skipn in E. unfold begins. lia.
Qed.

Lemma total_next : forall (its : list item) k p m, nth_error its k = Some (p, m) -> total (firstn (S k) its) = total (firstn k its) + bits m.
Proof. intros its k p m Hk. rewrite (firstn_S_snoc item _ _ _ Hk), total_app. unfold total. cbn [fold_right snd]. lia. Qed.

Section Emitted.
Context (its : list item) (hs : list hdr) (HW : Forall well_put its) (HM : Forall2 made its hs) (HT : total its <= 8 * 130000)
  (f' : frame) (b : list Z) {ws : list string} {mk : bool} (HS : serialised ws (MkFrame hs 0 mk) f' b).

Local Notation fr := (MkFrame hs 0 mk).

Lemma sizes_fold : forall l, sizes_of l = fold_right Z.add 0 (map size_after l).
Proof. unfold sizes_of. induction l as [|x l IH]; [reflexivity|]. cbn [fold_right map]. rewrite IH. reflexivity. Qed.

Lemma at_part : forall k, start_of (fr_stack f') k = begins its k.
Proof.
  intros k. destruct (sizes_after _ _ _ _ HS) as [_ HZ]. cbn [fr_stack] in HZ. destruct (parts_size _ _ (well_firstn _ HW k) (made_firstn _ _ HM k)) as [Z1 _].
  unfold start_of, sum_sizes, begins. rewrite <- firstn_map, HZ, firstn_map. rewrite sizes_fold in Z1. unfold begins in *. lia.
Qed.

Lemma whole_size : sum_sizes (fr_stack f') = total its / 8.
Proof. destruct (sizes_after _ _ _ _ HS) as [_ HZ]. cbn [fr_stack] in HZ. destruct (parts_size _ _ HW HM) as [Z1 _]. unfold sum_sizes. rewrite HZ. rewrite sizes_fold in Z1. lia. Qed.

Lemma at_byte_part : forall k, at_byte f' k = Z.to_nat (begins its k).
Proof. intros k. unfold at_byte. rewrite at_part. reflexivity. Qed.

Lemma left_part : forall k, bytes_from f' k = left_from its k.
Proof. intros k. unfold bytes_from, left_from. rewrite at_part, whole_size. reflexivity. Qed.

Lemma message_part : forall k, message f' b k = rest_from its b k.
Proof. intros k. unfold message, rest_from. rewrite at_byte_part, left_part. reflexivity. Qed.

Lemma field_part : forall k off n, number_at b (total (firstn k its) + off) n = field_at f' b k off n.
Proof. intros k off n. unfold field_at. rewrite at_part. destruct (begins_bits its k HW) as [E _]. rewrite E. reflexivity. Qed.

Lemma part_ok : forall k it, nth_error its k = Some it -> well_put it.
Proof. intros k it Hk. rewrite Forall_forall in HW. apply HW. eapply nth_error_In; eauto. Qed.

Lemma part_made : forall k n asg m, nth_error its k = Some (Header n asg, m) -> exists h, nth_error (fr_stack fr) k = Some h /\ made_header n asg m h /\ h_name h = n /\ form (Header n asg) m /\ asg_ok n asg m.
Proof.
  intros k n asg m Hk. destruct (made_nth _ _ HM _ _ Hk) as [h [H1 H2]]. exists h. split; [auto|]. split; [exact H2|]. split; [apply (made_named _ _ _ H2)|]. destruct (part_ok _ _ Hk) as [K1 K2]. auto.
Qed.

Lemma part_laid : forall k n asg m h fld off w, nth_error its k = Some (Header n asg, m) -> nth_error (fr_stack fr) k = Some h -> place m fld = Some (off, w) -> fld <> "-"%string -> laid_ok f' b k h fld off w.
Proof.
  intros k n asg m h fld off w Hk Hh HP Hne. destruct (part_made _ _ _ _ Hk) as [h2 [H1 [H2 [H3 [HF HA]]]]]. assert (h2 = h) by congruence. subst h2. clear H1.
  assert (G : format_of h = Some m -> laid_ok f' b k h fld off w) by (intros Hf; apply (layout _ _ _ _ _ _ _ _ _ HS Hh); split; eauto).
  assert (Q : forall t, find_tmpl n = Some t -> seq_chk t = true -> fmt (h_fields h) = m -> laid_ok f' b k h fld off w).
  { intros t Ht Hc Hf. destruct (named_emitting _ _ _ _ k n t HS) as [h0 [h' [E [_ Hk0]]]]; [exists h; auto|auto|]. assert (h0 = h) by congruence. subst h0. eapply layout_seq; eauto. rewrite Hf. exact HP. }
  apply String.eqb_eq in H3. remember (Header n asg) as p eqn:Ep. unfold format_of in G.
  destruct HF as [n0 a0 m Hn Hc|a0 s d Hg Hd Hl|a0|a0 Hq|a0|a0 s d Hg Hd|a0 Hg|p d Hr]; try (assert (a0 = asg) by congruence; subst a0).
  - assert (n0 = n) by congruence. subst n0. destruct (table_size _ _ _ _ Hn Hc H2) as [_ [_ T]]. apply G. apply String.eqb_eq in H3; rewrite H3. cbn [In] in T.
    destruct (String.eqb_spec n "igmp"); [exfalso; apply T; auto|]. destruct (String.eqb_spec n "mld"); [exfalso; apply T; auto|]. destruct (String.eqb_spec n "sv"); [exfalso; apply T; auto|]. destruct (String.eqb_spec n "profinet-rtc"); [exfalso; apply T; auto 8|].
    rewrite (find_format _ _ Hn). reflexivity.
  - assert (n = "coap"%string) by congruence. subst n. apply (Q HDR_COAP eq_refl seq_coap). apply (token_fmt _ _ _ _ _ H2 Hg Hd Hl).
  - assert (n = "igmp"%string) by congruence. subst n. apply G. apply String.eqb_eq in H3; rewrite H3. cbn [String.eqb Ascii.eqb Bool.eqb]. unfold igmp_format, igmp_form, is_query, is_report. rewrite !(made_any _ _ _ _ _ H2). reflexivity.
  - assert (n = "mld"%string) by congruence. subst n. apply G. apply String.eqb_eq in H3; rewrite H3. cbn [String.eqb Ascii.eqb Bool.eqb]. unfold mld_format, mld_form, is_query, is_report. rewrite !(made_any _ _ _ _ _ H2). reflexivity.
  - assert (n = "sv"%string) by congruence. subst n. apply (layout _ _ _ _ _ _ _ _ _ HS Hh). split; [exact Hne|]. unfold format_of. apply String.eqb_eq in H3; rewrite H3. cbn [String.eqb Ascii.eqb Bool.eqb]. eexists. split; [reflexivity|].
    unfold sv_format. rewrite (made_any _ _ _ _ _ H2). fold (redbox asg). unfold sv_form in HP. destruct (redbox asg); [exact HP|]. apply String.eqb_neq in Hne. rewrite String.eqb_sym in Hne.
    rewrite app_nil_r. unfold place in *. cbn [app place_from] in *. rewrite Hne in HP. exact HP.
  - assert (n = "profinet-rtc"%string) by congruence. subst n. apply (Q HDR_PNET_RTC eq_refl seq_pnet). apply (data_fmt _ _ _ _ _ H2 HA Hg Hd).
  - assert (n = "profinet-rtc"%string) by congruence. subst n. apply (Q HDR_PNET_RTC eq_refl seq_pnet). apply (no_data_fmt _ _ _ H2 Hg).
  - subst p. inversion Hr.
Qed.

(** *** Names *)
Lemma gave_part : forall k n asg m fld, nth_error its k = Some (Header n asg, m) -> user_gave fr k fld = gives asg fld.
Proof. intros k n asg m fld Hk. destruct (part_made _ _ _ _ Hk) as [h [H1 [H2 _]]]. rewrite (gave _ _ _ _ H1). eapply made_given; eauto. Qed.

Lemma named_part : forall k n asg m, nth_error its k = Some (Header n asg, m) -> named fr k n.
Proof. intros k n asg m Hk. destruct (part_made _ _ _ _ Hk) as [h [H1 [_ [H2 _]]]]. exists h. auto. Qed.

Lemma names_part : forall k, option_map h_name (nth_error (fr_stack fr) k) = nth_error (names_of its) k.
Proof. intros k. cbn [fr_stack]. rewrite <- (made_names _ _ HM), nth_error_map. reflexivity. Qed.

Lemma named_iff : forall k n, named fr k n <-> nth_error (names_of its) k = Some n.
Proof.
  intros k n. rewrite <- names_part. split; [intros [h [H1 H2]]; rewrite H1; cbn [option_map]; congruence|].
  destruct (nth_error (fr_stack fr) k) as [h|] eqn:E; [|discriminate]. cbn [option_map]. intros H. apply some_inj in H. exists h. auto.
Qed.

Lemma next_part : forall k n d, next_said fr k n d = next_number its k n d.
Proof.
  intros k n d. unfold next_said, next_number. rewrite <- names_part. destruct (nth_error (fr_stack fr) (S k)) as [nx|] eqn:En; cbn [option_map]; [|reflexivity].
  unfold announced. destruct (String.eqb_spec (h_name nx) "icmp") as [Ei|Ei]; [|rewrite andb_false_r; reflexivity].
  rewrite (mentions_given _ _ _ _ _ HM En (or_intror Ei)), (gave _ _ _ _ En). reflexivity.
Qed.

Lemma form_table : forall n asg m, form (Header n asg) m -> ~ In n ["igmp"; "mld"; "sv"; "profinet-rtc"; "coap"]%string -> format_named n m.
Proof.
  intros n asg m HF Hn. remember (Header n asg) as p eqn:Ep.
  destruct HF as [n0 a0 m Hn0 Hc|a0 s d Hg Hd Hl|a0|a0 Hq|a0|a0 s d Hg Hd|a0 Hg|p d Hr]; [assert (n0 = n) by congruence; subst n0; exact Hn0| | | | | | |subst p; inversion Hr];
    exfalso; apply Hn; cbn [In]; [assert ("coap"%string = n) by congruence|assert ("igmp"%string = n) by congruence|assert ("mld"%string = n) by congruence|assert ("sv"%string = n) by congruence|assert ("profinet-rtc"%string = n) by congruence|assert ("profinet-rtc"%string = n) by congruence]; auto 8.
Qed.

Lemma lens_plain : forallb (fun q => negb (existsb (String.eqb (fst q)) ["igmp"; "mld"; "sv"; "profinet-rtc"; "coap"]%string)) length_fields = true.
Proof. vm_compute. reflexivity. Qed.
Lemma typs_plain : forallb (fun q => negb (existsb (String.eqb (fst q)) ["igmp"; "mld"; "sv"; "profinet-rtc"; "coap"]%string)) type_fields = true.
Proof. vm_compute. reflexivity. Qed.

Lemma not_among : forall n l, existsb (String.eqb n) l = false -> ~ In n l.
Proof. intros n l H Hin. assert (existsb (String.eqb n) l = true) by (apply existsb_exists; exists n; split; [auto|apply String.eqb_refl]). congruence. Qed.

(** *** Lengths and types *)
Lemma length_part : forall k n asg m fld off w u, nth_error its k = Some (Header n asg, m) -> place m fld = Some (off, w) -> last_given asg fld = None ->
  length_field n fld = Some u -> number_at b (total (firstn k its) + off) (Z.to_nat w) = (left_from its k - u) mod 65536.
Proof.
  intros k n asg m fld off w u Hk HP Hg HL. unfold length_field in HL. destruct (find _ length_fields) as [[n0 [[fl o] u']]|] eqn:Ef; [|discriminate]. cbn [fst snd] in HL. apply some_inj in HL. subst u'.
  destruct (find_some _ _ Ef) as [Hin E]. cbn [fst snd] in E. rewrite andb_true_iff, !String.eqb_eq in E. destruct E as [-> ->].
  pose proof lens_plain as LP. rewrite forallb_forall in LP. specialize (LP _ Hin). cbn [fst] in LP. apply negb_true_iff in LP.
  destruct (part_made _ _ _ _ Hk) as [h [_ [_ [_ [HF _]]]]]. pose proof (form_table _ _ _ HF (not_among _ _ LP)) as Hn.
  pose proof lens_placed as HC. rewrite forallb_forall in HC. specialize (HC _ Hin). cbn [len_place] in HC. rewrite andb_true_iff in HC. destruct HC as [C1 C2].
  rewrite forallb_forall in C2. specialize (C2 _ Hn). cbn [fst snd] in C2. rewrite String.eqb_refl, HP in C2. cbn [negb orb] in C2. assert (o = off /\ w = 16) by lia. destruct H as [-> ->].
  rewrite field_part, <- left_part.
  apply (lengths ws fr f' b k n fld off u); auto; [eapply named_part; eauto|rewrite (gave_part _ _ _ _ _ Hk); unfold gives; rewrite Hg; reflexivity].
Qed.

Lemma type_part : forall k n asg m fld off w w' d, nth_error its k = Some (Header n asg, m) -> place m fld = Some (off, w) -> last_given asg fld = None ->
  type_field n fld = Some (w', d) -> number_at b (total (firstn k its) + off) (Z.to_nat w) = next_number its k n d mod 2 ^ w'.
Proof.
  intros k n asg m fld off w w' d Hk HP Hg HL. unfold type_field in HL. destruct (find _ type_fields) as [[n0 [[[fl o] v] e]]|] eqn:Ef; [|discriminate]. cbn [fst snd] in HL. apply some_inj in HL. apply pair_inj in HL. destruct HL as [-> ->].
  destruct (find_some _ _ Ef) as [Hin E]. cbn [fst snd] in E. rewrite andb_true_iff, !String.eqb_eq in E. destruct E as [-> ->].
  pose proof typs_plain as LP. rewrite forallb_forall in LP. specialize (LP _ Hin). cbn [fst] in LP. apply negb_true_iff in LP.
  destruct (part_made _ _ _ _ Hk) as [h [_ [_ [_ [HF _]]]]]. pose proof (form_table _ _ _ HF (not_among _ _ LP)) as Hn.
  pose proof typs_placed as HC. rewrite forallb_forall in HC. specialize (HC _ Hin). cbn [typ_place] in HC. rewrite andb_true_iff in HC. destruct HC as [C1 C2].
  rewrite forallb_forall in C2. specialize (C2 _ Hn). cbn [fst snd] in C2. rewrite String.eqb_refl, HP in C2. cbn [negb orb] in C2. assert (o = off /\ w = w') by lia. destruct H as [-> ->].
  rewrite field_part, <- next_part.
  apply (chaining ws fr f' b k n fld off w' d); auto; [eapply named_part; eauto|rewrite (gave_part _ _ _ _ _ Hk); unfold gives; rewrite Hg; reflexivity].
Qed.

(** *** Checksums *)
Lemma emitted_size : zlen b = Z.max 60 (total its / 8).
Proof. destruct HS as [_ [_ HF]]. unfold zlen. rewrite (emitted_length _ _ _ HF), whole_size. reflexivity. Qed.

Lemma bytes_b : Forall is_byte b.
Proof. destruct HS as [_ [_ HF]]. apply (emitted_bytes _ _ _ HF). Qed.

Lemma short_b : zlen b < 131000.
Proof. rewrite emitted_size. lia. Qed.

Lemma stored_part : forall s n o, (s + n <= length b)%nat -> (o + 2 <= n)%nat -> number_at b (8 * Z.of_nat (s + o)) 16 = positional 256 (slice (slice b s n) o 2).
Proof.
  intros s n o Hs Ho. change 16%nat with (8 * 2)%nat. rewrite number_slice; [|apply is_byte_bytes; apply bytes_b|lia]. f_equal. rewrite slice_slice by lia. reflexivity.
Qed.

Lemma at_word_part : forall k o n, (Z.to_nat (begins its k) + n <= length b)%nat -> (o + 2 <= n)%nat ->
  number_at b (total (firstn k its) + 8 * Z.of_nat o) 16 = positional 256 (slice (slice b (Z.to_nat (begins its k)) n) o 2).
Proof.
  intros k o n Hs Ho. rewrite <- stored_part by auto. destruct (begins_bits its k HW) as [E [E2 _]]. rewrite E. f_equal. lia.
Qed.

Lemma room_part : forall k p m, nth_error its k = Some (p, m) ->
  8 * begins its k + bits m <= total its /\ bits m <= 8 * left_from its k /\ begins its k + left_from its k <= zlen b.
Proof.
  intros k p m Hk. pose proof (total_next its k p m Hk) as E. destruct (begins_bits its k HW) as [E1 [E2 E3]]. destruct (begins_bits its (S k) HW) as [E4 [E5 E6]].
  destruct (total_ok its HW). unfold left_from. rewrite emitted_size. split; [lia|]. split; lia.
Qed.

Lemma sum_word_part : forall k n asg m off P o, nth_error its k = Some (Header n asg, m) -> place m "chksum" = Some (off, 16) -> off = 8 * Z.of_nat o ->
  summed P o (rest_from its b k) -> number_at b (total (firstn k its) + off) 16 = positional 256 (once (P ++ blank o (rest_from its b k))).
Proof.
  intros k n asg m off P o Hk HP Eo [H _]. destruct (room_part _ _ _ Hk) as [R1 [R2 R3]]. destruct (part_made _ _ _ _ Hk) as [h [_ [_ [_ [HF _]]]]].
  pose proof (cp_in _ _ (form_covers _ _ _ HF) _ _ _ HP) as [I1 [I2 I3]]. destruct (begins_bits its k HW) as [E1 [E2 E3]]. subst off.
  rewrite (at_word_part k o (Z.to_nat (left_from its k))); try lia; [|unfold zlen in R3; lia]. fold (rest_from its b k). rewrite H. reflexivity.
Qed.

Lemma no_pseudo_part : forall k n asg m off t, nth_error its k = Some (Header n asg, m) -> gives asg "chksum" = false -> find_tmpl n = Some t -> h_fill t = FL_udp_tcp ->
  varhdr t = false -> at_place t "chksum" off 16 = true -> match find_field t "chksum" with Some ft => f_def ft | None => None end = None -> 0 <= off -> off + 16 <= 8 * h_size t ->
  (forall j q, k = S j -> nth_error (names_of its) j = Some q -> q <> "ipv4"%string /\ q <> "ipv6"%string) -> number_at b (total (firstn k its) + off) 16 = 0.
Proof.
  intros k n asg m off t Hk HG0 Et Ef Hv Ha Hd H0 Hin Hno. change 16%nat with (Z.to_nat 16). rewrite field_part.
  pose proof (gave_part _ _ _ _ "chksum"%string Hk) as HG. rewrite HG0 in HG.
  destruct (named_emitting _ _ _ _ _ _ t HS (named_part _ _ _ _ Hk) Et) as [h [h' [E [En Hk2]]]]. rewrite (gave _ _ _ _ Hk2) in HG.
  destruct (emitting_tail _ _ _ _ _ _ _ E) as [WhB [WB [Wh Wh']]]. pose proof (e_run _ _ _ _ _ _ _ E) as HR. rewrite Ef in HR. cbn [run_fill] in HR. apply udp_eff in HR; [|exact WhB].
  destruct (at_place_find _ _ _ _ Ha) as [ft Hft]. pose proof (e_inv _ _ _ _ _ _ _ E) as I. destruct (inv_find _ _ _ _ I Hft) as [fl [Hfl Hs]].
  destruct HR as [[-> _]|[_ [A' [ll [t2 [ph [bb [EA [EP _]]]]]]]]].
  - assert (Hfl' : find_field (udp_len h (skipn (S k) (fr_stack f'))) "chksum" = Some fl) by (unfold udp_len; rewrite setd_other by discriminate; auto).
    rewrite (em_field _ _ _ _ _ _ _ "chksum"%string off 16 fl E ltac:(rewrite Ef; reflexivity) Hv Ha H0 ltac:(lia) Hin Hfl').
    rewrite (given_data t h "chksum" fl I Hfl HG Hd). reflexivity.
  - exfalso. destruct k as [|j]; [cbn [firstn] in EA; destruct A'; discriminate|]. pose proof (names_part j) as HN.
    destruct (nth_error (fr_stack fr) j) as [q|] eqn:Ej.
    + cbn [option_map] in HN. destruct (Hno j _ eq_refl (eq_sym HN)) as [N1 N2]. rewrite (firstn_S_snoc _ _ _ _ Ej) in EA. apply app_inj_tail in EA. destruct EA as [_ <-].
      unfold pseudo_for in EP. apply String.eqb_neq in N1, N2. rewrite N1, N2 in EP. discriminate.
    + apply nth_error_None in Ej. assert (nth_error (fr_stack fr) (S j) <> None) by congruence. apply nth_error_Some in H. lia.
Qed.

Lemma pseudo_part : forall k x,
  (exists j q, k = S j /\ nth_error (names_of its) j = Some q /\ (q = "ipv4" \/ q = "ipv6")%string /\
     pseudo_before its b k x = Some (if String.eqb q "ipv4" then pseudo_header4 b (at_byte f' j) x (bytes_from f' (S j) mod 65536) else pseudo_header6 b (at_byte f' j) x (bytes_from f' (S j)))) \/
  (pseudo_before its b k x = None /\ forall j q, k = S j -> nth_error (names_of its) j = Some q -> q <> "ipv4"%string /\ q <> "ipv6"%string).
Proof.
  intros [|j] x; [right; split; [reflexivity|intros j q H; discriminate]|]. unfold pseudo_before. rewrite <- (at_byte_part j), <- (left_part (S j)).
  destruct (nth_error (names_of its) j) as [q|] eqn:Ej.
  - destruct (String.eqb_spec q "ipv4") as [E4|E4]; [subst q; left; exists j, "ipv4"%string; auto|].
    destruct (String.eqb_spec q "ipv6") as [E6|E6]; [subst q; left; exists j, "ipv6"%string; auto|]. right. split; [reflexivity|]. intros j2 q2 H1 H2. injection H1 as <-. assert (q2 = q) by congruence. subst q2. auto.
  - right. split; [reflexivity|]. intros j2 q2 H1 H2. injection H1 as <-. congruence.
Qed.

Lemma transport_part : forall k n asg m x o t, nth_error its k = Some (Header n asg, m) -> place m "chksum" = Some (8 * Z.of_nat o, 16) ->
  gives asg "chksum" = false -> transport n x o -> find_tmpl n = Some t -> h_fill t = FL_udp_tcp ->
  varhdr t = false -> at_place t "chksum" (8 * Z.of_nat o) 16 = true -> match find_field t "chksum" with Some ft => f_def ft | None => None end = None -> 8 * Z.of_nat o + 16 <= 8 * h_size t ->
  number_at b (total (firstn k its) + 8 * Z.of_nat o) 16 = match option_map (fun P => P ++ blank o (rest_from its b k)) (pseudo_before its b k x) with Some d => positional 256 (once d) | None => 0 end.
Proof.
  intros k n asg m x o t Hk HP Hg HTr Et Ef Hv Ha Hd Hin.
  destruct (pseudo_part k x) as [[j [q [-> [Ej [Hq EP]]]]]|[EP Hno]]; rewrite EP; cbn [option_map].
  - apply (sum_word_part (S j) n asg m); auto. rewrite <- message_part.
    apply (transport_checksum ws fr f' b j q n x o); auto; [apply named_iff; auto|eapply named_part; eauto|rewrite (gave_part _ _ _ _ _ Hk); auto|apply short_b].
  - apply (no_pseudo_part k n asg m _ t); auto. lia.
Qed.

Lemma chksum_part : forall k n asg m off w, addressed its -> nth_error its k = Some (Header n asg, m) -> place m "chksum" = Some (off, w) ->
  gives asg "chksum" = false -> number_at b (total (firstn k its) + off) (Z.to_nat w) = match summed_over its b k n with Some d => positional 256 (once d) | None => 0 end.
Proof.
  intros k n asg m off w HAd Hk HP Hg. pose proof (named_part _ _ _ _ Hk) as HN. pose proof short_b as HB.
  pose proof (gave_part _ _ _ _ "chksum"%string Hk) as HG. rewrite Hg in HG.
  destruct (part_made _ _ _ _ Hk) as [h [_ [_ [_ [HF _]]]]].
  destruct (cp_sum _ _ (form_covers _ _ _ HF) off w HP) as [-> HC]. change (Z.to_nat 16) with 16%nat. unfold summed_over.
  destruct HC as [[E ->]|[[E ->]|[[E ->]|[E ->]]]].
  - subst n. cbn [String.eqb Ascii.eqb Bool.eqb]. destruct (ipv4_checksum _ _ _ _ _ HS HN HG) as [H _]. rewrite at_byte_part in H. cbn [app] in H. rewrite <- H.
    destruct (room_part _ _ _ Hk) as [R1 [R2 R3]]. destruct (begins_bits its k HW) as [E1 [E2 E3]].
    assert (HMb : bits m = 160).
    { pose proof (form_table _ _ _ HF ltac:(intros Q; cbn in Q; intuition discriminate)) as Hn. assert (Em : find (fun q => String.eqb (fst q) "ipv4") formats = Some ("ipv4"%string, m)) by (apply find_format; exact Hn).
      cbn in Em. apply some_inj in Em. apply pair_inj in Em. destruct Em as [_ Em]. rewrite <- Em. reflexivity. }
    apply (at_word_part k 10 20); unfold zlen in *; lia.
  - subst n. cbn [String.eqb Ascii.eqb Bool.eqb]. apply (transport_part k "udp" asg m 17 6 HDR_UDP); auto; try (vm_compute; reflexivity); [left; auto|vm_compute; discriminate].
  - subst n. cbn [String.eqb Ascii.eqb Bool.eqb]. apply (transport_part k "tcp" asg m 6 16 HDR_TCP); auto; try (vm_compute; reflexivity); [right; auto|vm_compute; discriminate].
  - destruct E as [<-|[<-|[<-|[]]]]; cbn [String.eqb Ascii.eqb Bool.eqb].
    + destruct (icmp_checksum _ _ _ _ _ HS HN HG HB) as [H1 H2]. unfold behind_ipv6. destruct k as [|j].
      * apply (sum_word_part 0 _ _ _ 16 [] 2 Hk); auto. rewrite <- message_part. apply H2. intros j Hj. discriminate.
      * destruct (nth_error (names_of its) j) as [q|] eqn:Ej.
        -- destruct (String.eqb_spec q "ipv6") as [E6|E6].
           ++ unfold pseudo_before. rewrite Ej, E6. cbn [String.eqb Ascii.eqb Bool.eqb option_map]. apply (sum_word_part (S j) _ _ _ 16 _ 2 Hk); auto. rewrite <- message_part.
              rewrite <- at_byte_part, <- left_part. apply H1; [reflexivity|]. apply named_iff. congruence.
           ++ apply (sum_word_part (S j) _ _ _ 16 [] 2 Hk); auto. rewrite <- message_part. apply H2. intros j2 Hj HN2. injection Hj as <-. apply named_iff in HN2. congruence.
        -- apply (sum_word_part (S j) _ _ _ 16 [] 2 Hk); auto. rewrite <- message_part. apply H2. intros j2 Hj HN2. injection Hj as <-. apply named_iff in HN2. congruence.
    + apply (sum_word_part k _ _ _ 16 [] 2 Hk); auto. rewrite <- message_part. apply (igmp_checksum _ _ _ _ _ HS HN HG HB).
    + destruct (HAd _ _ _ Hk Hg) as [j [J1 _]]. rewrite J1. cbn [option_map]. destruct (first_ipv6_spec _ _ _ J1) as [F1 [F2 F3]].
      apply (sum_word_part k _ _ _ 16 _ 2 Hk); auto. rewrite <- message_part, <- at_byte_part, <- left_part.
      apply (mld_checksum _ _ _ _ _ _ HS HN HG HB F1); [apply named_iff; auto|]. intros i Hi HN2. apply named_iff in HN2. apply (F3 i Hi HN2).
Qed.
End Emitted.

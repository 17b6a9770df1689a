(** When the match mask can be built, exactly (C67). *)

From Verif Require Import PTextIp PTextNum Frame PSer PParse PMatch PFrame PInv PStep PArgs PSoft PFill PGroup PAll PSafe PAssign PImage PSum PEmit SpecFill PCheck PCheck2 PLen PKeep PTwice PCoap SpecLayout PLayout PMask.

(** The fields that are compared end inside a frame of [size] bytes, the header starting
    at [offset]. *)
Definition fits (size offset : Z) (f : field) : bool := f_skip f || (f_width f + f_off f + offset * 8 <=? 8 * size).
Fixpoint all_fit (size offset : Z) (hs : list hdr) : bool :=
  match hs with
  | [] => true
  | h :: r => forallb (fits size offset) (h_fields h) && all_fit size (offset + h_size h) r
  end.

Definition loose (h : hdr) : Prop := 0 < h_size h <= size_limit /\ forall f, In f (h_fields h) -> 0 <= f_off f /\ 0 <= f_width f <= 8 * h_size h.

Lemma loose_fields : forall fs offset b size, bytes_ok b -> 0 <= offset -> offset + size <= zlen b -> 0 < size <= size_limit ->
  (forall f, In f fs -> 0 <= f_off f /\ 0 <= f_width f <= 8 * size) ->
  if forallb (fits (zlen b) offset) fs then exists b', copy_fields fs offset b true = Ret b' /\ bytes_ok b' /\ zlen b' = zlen b else copy_fields fs offset b true = Crash Assert_fail.
Proof.
  induction fs as [|f fs IH]; intros offset b size Hb Ho Hl Hs HF; cbn [forallb copy_fields]; [exists b; auto|].
  destruct (HF f (or_introl eq_refl)) as [F1 F2]. assert (HW : BIT_TO_BYTE (f_width f) + offset <= zlen b).
  { destruct (Z.eq_dec (f_width f) 0) as [E|E]; [rewrite E; change (BIT_TO_BYTE 0) with 1; lia|rewrite BIT_TO_BYTE_pos by lia; lia]. }
  destruct (Z.ltb_spec (zlen b) (BIT_TO_BYTE (f_width f) + offset)) as [X|_]; [lia|]. unfold field_source, fits at 1. destruct (f_skip f).
  - cbn [orb andb bind]. apply IH with (size := size); auto. intros g Hg. apply HF. right. auto.
  - cbn [orb]. destruct (Z.leb_spec (f_width f + f_off f + offset * 8) (8 * zlen b)) as [X|X]; cbn [andb].
    + set (v := repeat 255 (Z.to_nat (BIT_TO_BYTE (f_width f)))). pose proof (BIT_TO_BYTE_ge (f_width f) ltac:(lia)) as G1. pose proof (BIT_TO_BYTE_ge1 (f_width f) ltac:(lia)) as G2.
      assert (Lv : zlen v = BIT_TO_BYTE (f_width f)) by (unfold v; rewrite zlen_repeat; lia).
      assert (Sv : small v).
      { unfold small. rewrite Lv. destruct (Z.eq_dec (f_width f) 0) as [E|E]; [rewrite E; change (BIT_TO_BYTE 0) with 1; lia|rewrite BIT_TO_BYTE_pos by lia; unfold size_limit in Hs; lia]. }
      destruct (write_field_spec b offset f v Hb Ho F1 ltac:(lia) ltac:(lia) ltac:(lia) Sv) as [b1 [E1 [L1 [O1 _]]]]. rewrite E1. cbn [bind].
      assert (L2 : zlen b1 = zlen b) by (unfold zlen; congruence). rewrite <- L2. apply IH with (size := size); auto; [lia|]. intros g Hg. apply HF. right. auto.
    + unfold hdr_write_field. destruct (Z.ltb_spec (8 * zlen b) (f_width f + f_off f + offset * 8)); [reflexivity|lia].
Qed.

Lemma firm_fits : forall h offset n, wf_hdr true h -> offset + h_size h <= n -> forallb (fits n offset) (h_fields h) = true.
Proof.
  intros h offset n [_ HW] Hl. apply forallb_forall. intros f Hf. rewrite Forall_forall in HW. destruct (HW f Hf) as [_ W]. unfold fits. unfold field_source in W. destruct (f_skip f); [auto|]. destruct (W _ eq_refl) as [W1 [W2 _]]. cbn [orb]. lia.
Qed.

Lemma stack_mask : forall hs offset b, bytes_ok b -> 0 <= offset -> offset + stack_size hs <= zlen b -> Forall (fun h => wf_hdr true h \/ loose h) hs ->
  if all_fit (zlen b) offset hs then exists b', copy_stack hs offset b true = Ret b' else copy_stack hs offset b true = Crash Assert_fail.
Proof.
  induction hs as [|h r IH]; intros offset b Hb Ho Hl HF; cbn [all_fit copy_stack]; [exists b; auto|]. rewrite stack_size_cons in Hl.
  assert (Hn : 0 <= stack_size r) by (apply stack_size_nonneg; eapply Forall_impl; [|exact (Forall_inv_tail HF)]; intros g [[G _]|[G _]]; lia).
  assert (H1 : if forallb (fits (zlen b) offset) (h_fields h) then exists b', copy_fields (h_fields h) offset b true = Ret b' /\ bytes_ok b' /\ zlen b' = zlen b else copy_fields (h_fields h) offset b true = Crash Assert_fail).
  { destruct (Forall_inv HF) as [W|[W1 W2]].
    - rewrite (firm_fits h offset (zlen b) W ltac:(lia)). destruct W as [W1 W2]. destruct (copy_fields_spec (h_fields h) offset b true (h_size h) Hb Ho ltac:(lia) W1 W2) as [b' [E [L [O _]]]]. exists b'. split; [auto|split; [auto|unfold zlen; congruence]].
    - apply loose_fields with (size := h_size h); auto. lia. }
  unfold hdr_copy_to_buf_. destruct (forallb (fits (zlen b) offset) (h_fields h)); cbn [andb]; [|rewrite H1; reflexivity]. destruct H1 as [b1 [E1 [O1 L1]]]. rewrite E1. cbn [bind]. rewrite <- L1. apply IH; auto; [destruct (Forall_inv HF) as [[G _]|[G _]]; lia|lia|exact (Forall_inv_tail HF)].
Qed.

Lemma all_fit_spec : forall hs offset n, all_fit n offset hs = true <->
  forall k h fl, nth_error hs k = Some h -> In fl (h_fields h) -> f_skip fl = false -> 8 * (offset + start_of hs k) + f_off fl + f_width fl <= 8 * n.
Proof.
  induction hs as [|h r IH]; intros offset n; cbn [all_fit].
  - split; [|auto]. intros _ [|k] h fl H; discriminate H.
  - rewrite andb_true_iff, IH, forallb_forall. split.
    + intros [H1 H2] [|k] g fl Hk Hf Hs.
      * cbn [nth_error] in Hk. apply some_inj in Hk. subst g. specialize (H1 _ Hf). unfold fits in H1. rewrite Hs in H1. change (start_of (h :: r) 0) with 0. cbn [orb] in H1. lia.
      * specialize (H2 k g fl Hk Hf Hs). change (start_of (h :: r) (S k)) with (h_size h + start_of r k). lia.
    + intros H. split.
      * intros f Hf. unfold fits. destruct (f_skip f) eqn:Es; [auto|]. specialize (H 0%nat h f eq_refl Hf Es). change (start_of (h :: r) 0) with 0 in H. cbn [orb]. lia.
      * intros k g fl Hk Hf Hs. specialize (H (S k) g fl Hk Hf Hs). change (start_of (h :: r) (S k)) with (h_size h + start_of r k) in H. lia.
Qed.

Ltac every H := cbn [h_fields In] in H; repeat (destruct H as [<-|H]; [|]); [..|destruct H]; cbn [f_off f_width].

Lemma keeps_loose : forall h h', keeps_given h h' -> loose h -> loose h'.
Proof.
  intros h h' HK [W1 W2]. destruct (HK) as [HS _]. split; [lia|]. intros fl' Hin. destruct (keeps_field _ _ _ HK Hin) as [fl [F1 [F2 [F3 F4]]]]. rewrite F3, F4, HS. auto.
Qed.

(** What each emitted header needs: bytes from its start. *)
Definition needs (n : string) : Z := if String.eqb n "igmp" then 14 else if String.eqb n "mld" then 30 else if String.eqb n "sv" then 22 else 0.

Lemma keeps_needs : forall h h' (P : Z -> Prop), keeps_given h h' -> (forall fl, In fl (h_fields h) -> P (f_off fl + f_width fl)) -> forall fl, In fl (h_fields h') -> P (f_off fl + f_width fl).
Proof. intros h h' P HK H fl' Hin. destruct (keeps_field _ _ _ HK Hin) as [fl [F1 [F2 [F3 F4]]]]. rewrite F3, F4. auto. Qed.

Lemma emitted_loose : forall ws f f' b k h h', serialised ws f f' b -> header_pair f f' k h h' -> In (h_name h) ["igmp"; "mld"; "sv"]%string ->
  loose h' /\ forall fl, In fl (h_fields h') -> f_off fl + f_width fl <= 8 * needs (h_name h).
Proof.
  intros ws f f' b k h h' HS [Hk Hk'] Hn. destruct (serialised_emitting _ _ _ _ _ _ HS Hk) as [t [x E]].
  assert (x = h') by (pose proof (e_dst _ _ _ _ _ _ _ E); congruence). subst x.
  pose proof (e_inv _ _ _ _ _ _ _ E) as I. pose proof (e_tmpl _ _ _ _ _ _ _ E) as Ht.
  assert (Hreg : regular h = true) by (destruct HS as [_ [HS _]]; rewrite Forall_forall in HS; apply HS; eapply nth_error_In; eauto).
  assert (T : t = HDR_IGMP \/ t = HDR_MLD \/ t = HDR_SV).
  { rewrite (i_name _ _ I) in Hn. assert (K : forallb (fun t => negb (existsb (String.eqb (h_name t)) ["igmp"; "mld"; "sv"]%string) || match h_fill t with FL_igmp | FL_mld | FL_sv => true | _ => false end) hdr_tmpls = true) by (vm_compute; reflexivity).
    rewrite forallb_forall in K. specialize (K t Ht). apply orb_true_iff in K. destruct K as [K|K]; [exfalso; apply negb_true_iff in K; assert (X : existsb (String.eqb (h_name t)) ["igmp"; "mld"; "sv"]%string = true) by (apply existsb_exists; exists (h_name t); split; [exact Hn|apply String.eqb_refl]); congruence|].
    destruct (fill_kind t Ht) as [[Hvf _]|[[_ ->]|[[_ ->]|[[_ ->]|[_ ->]]]]]; auto; [|discriminate K]. destruct (h_fill t); try discriminate K; discriminate Hvf. }
  destruct T as [ -> |[ -> | -> ]].
  - destruct (igmp_keeps _ _ _ _ _ _ E) as [s [w [Eh HK]]]. assert (En : h_name h = "igmp"%string) by (rewrite Eh; reflexivity). rewrite En. change (8 * needs "igmp") with 112. split.
    + eapply keeps_loose; [exact HK|]. unfold loose, igmp_laid. cbn [h_size h_fields]. unfold size_limit. split; [destruct (is_query h), (is_report h); lia|]. intros fl Hin. every Hin; destruct (is_query h), (is_report h); lia.
    + eapply (keeps_needs _ _ (fun z => z <= 112)); [exact HK|]. intros fl Hin. unfold igmp_laid in Hin. every Hin; destruct (is_query h), (is_report h); lia.
  - destruct (mld_keeps _ _ _ _ _ _ Hreg E) as [s [w [Eh HK]]]. assert (En : h_name h = "mld"%string) by (rewrite Eh; reflexivity). rewrite En. change (8 * needs "mld") with 240.
    assert (Hqr : is_query h && is_report h = false) by (assert (Ef : h_fill h = FL_mld) by (rewrite Eh; reflexivity); unfold regular in Hreg; rewrite Ef in Hreg; apply negb_true_iff in Hreg; exact Hreg). split.
    + eapply keeps_loose; [exact HK|]. unfold loose, mld_laid. cbn [h_size h_fields]. unfold size_limit. split; [destruct (is_query h), (is_report h); lia|]. intros fl Hin. every Hin; destruct (is_query h), (is_report h); try discriminate Hqr; lia.
    + eapply (keeps_needs _ _ (fun z => z <= 240)); [exact HK|]. intros fl Hin. unfold mld_laid in Hin. every Hin; destruct (is_query h), (is_report h); lia.
  - destruct (sv_eff _ _ _ _ _ _ E) as [s [v [Eh HO]]]. assert (En : h_name h = "sv"%string) by (rewrite Eh; reflexivity). rewrite En. change (8 * needs "sv") with 176. subst h'. rewrite Eh. unfold loose, size_limit. destruct (existsb (given (sv_hdr s v)) tlv2_fields); unfold sv_hdr, sv_short; cbn [h_size h_fields]; (split; [split; [lia|]|]); intros fl Hin; every Hin; lia.
Qed.

(** The mask is built exactly if the compared fields, those a message does not have
    included, end inside the frame; otherwise an assertion stops the program. *)
Lemma mask_exact : forall ws f f' b, serialised ws f f' b ->
  ((exists m, frame_mask_to_buf f' = Ret m) <-> forall k h fl, nth_error (fr_stack f') k = Some h -> In fl (h_fields h) -> f_skip fl = false -> 8 * start_of (fr_stack f') k + f_off fl + f_width fl <= 8 * Z.of_nat (length b)) /\
  ((exists m, frame_mask_to_buf f' = Ret m) \/ frame_mask_to_buf f' = Crash Assert_fail).
Proof.
  intros ws f f' b HS. pose proof HS as [_ [_ HB]]. pose proof (frame_to_buf_inv _ _ _ HB) as [_ [_ [_ [HL HC]]]].
  assert (HF0 : forall h', In h' (fr_stack f') -> (0 <= h_size h' /\ (forall fl, In fl (h_fields h') -> within h' fl)) \/ loose h').
  { intros h' Hin. apply In_nth_error in Hin. destruct Hin as [k Hk']. destruct (nth_error (fr_stack f) k) as [h|] eqn:Hk; [|apply nth_error_None in Hk; rewrite <- (serialised_length _ _ _ _ HS) in Hk; apply nth_error_None in Hk; congruence].
    destruct (in_dec string_dec (h_name h) ["igmp"; "mld"; "sv"]%string) as [Hn|Hn]; [right; exact (proj1 (emitted_loose _ _ _ _ _ _ _ HS (conj Hk Hk') Hn))|]. left. split.
    - assert (W : seated h') by (eapply emitted_mask; [exact HS|split; eauto|]; unfold sv_whole; destruct (String.eqb_spec (h_name h) "sv") as [Es|Es]; [exfalso; apply Hn; rewrite Es; right; right; left; reflexivity|reflexivity]). apply W.
    - intros fl Hfl. eapply emitted_within; [exact HS|split; eauto|exact Hn|exact Hfl]. }
  assert (HP : Forall (fun h => 0 <= h_size h) (fr_stack f')) by (apply Forall_forall; intros h Hh; destruct (HF0 h Hh) as [[X _]|[X _]]; lia).
  assert (HF : Forall (fun h => wf_hdr true h \/ loose h) (fr_stack f')).
  { apply Forall_forall. intros h Hh. destruct (HF0 h Hh) as [[X1 X2]|X]; [left|right; auto]. apply within_wf; [|auto]. pose proof (stack_size_each _ _ HP Hh). lia. }
  pose proof (stack_size_nonneg _ HP) as H0.
  assert (E : exists b0, bytes_ok b0 /\ zlen b0 = Z.max (stack_size (fr_stack f')) 60 /\ frame_mask_to_buf f' = copy_stack (fr_stack f') 0 b0 true).
  { unfold frame_mask_to_buf, len_from. cbn [skipn]. destruct (Z.ltb_spec size_limit (stack_size (fr_stack f'))); [lia|]. cbn [bind]. set (n := stack_size (fr_stack f')) in *.
    assert (Lb0 : zlen (balloc (Z.max n 60)) = Z.max n 60) by (rewrite zlen_balloc; lia).
    destruct (Z.ltb_spec n 60).
    - destruct (memset_bits (balloc (Z.max n 60)) n (balloc_bytes _) ltac:(lia)) as [b1 [E1 [L1 [O1 _]]]]. exists b1. split; [auto|split; [unfold zlen in *; lia|]]. rewrite E1. reflexivity.
    - exists (balloc (Z.max n 60)). split; [apply balloc_bytes|split; [auto|reflexivity]]. }
  destruct E as [b0 [O0 [L0 E]]]. rewrite E. pose proof (stack_mask (fr_stack f') 0 b0 O0 ltac:(lia) ltac:(lia) HF) as M.
  assert (Lb : Z.of_nat (length b) = zlen b0) by (apply copy_stack_len in HC; rewrite HC; fold (zlen (balloc (Z.max (stack_size (fr_stack f')) 60))); rewrite zlen_balloc; lia).
  rewrite Lb. assert (S : (forall k h fl, nth_error (fr_stack f') k = Some h -> In fl (h_fields h) -> f_skip fl = false -> 8 * start_of (fr_stack f') k + f_off fl + f_width fl <= 8 * zlen b0) <-> all_fit (zlen b0) 0 (fr_stack f') = true) by (rewrite all_fit_spec; reflexivity).
  rewrite S. destruct (all_fit (zlen b0) 0 (fr_stack f')).
  - split; [split; auto|left; auto].
  - split; [|right; auto]. split; [intros [m X]; congruence|discriminate].
Qed.

(** Enough: the header and what it needs end inside the frame. *)
Lemma mask_room : forall ws f f' b, serialised ws f f' b ->
  (forall k h, nth_error (fr_stack f) k = Some h -> In (h_name h) ["igmp"; "mld"; "sv"]%string -> start_of (fr_stack f') k + needs (h_name h) <= Z.of_nat (length b)) -> exists m, frame_mask_to_buf f' = Ret m.
Proof.
  intros ws f f' b HS HR. apply (mask_exact _ _ _ _ HS). intros k h' fl Hk' Hfl Hsk. destruct (nth_error (fr_stack f) k) as [h|] eqn:Hk; [|apply nth_error_None in Hk; rewrite <- (serialised_length _ _ _ _ HS) in Hk; apply nth_error_None in Hk; congruence].
  destruct (in_dec string_dec (h_name h) ["igmp"; "mld"; "sv"]%string) as [Hn|Hn].
  - specialize (HR k h Hk Hn). destruct (emitted_loose _ _ _ _ _ _ _ HS (conj Hk Hk') Hn) as [_ X]. specialize (X fl Hfl). lia.
  - pose proof (emitted_within _ _ _ _ _ _ _ fl HS (conj Hk Hk') Hn Hfl) as [W1 [W2 W3]].
    assert (HP : Forall (fun h => 0 <= h_size h) (fr_stack f')).
    { apply Forall_forall. intros g Hg. apply In_nth_error in Hg. destruct Hg as [j Hj']. destruct (nth_error (fr_stack f) j) as [g0|] eqn:Hj; [|apply nth_error_None in Hj; rewrite <- (serialised_length _ _ _ _ HS) in Hj; apply nth_error_None in Hj; congruence].
      destruct (in_dec string_dec (h_name g0) ["igmp"; "mld"; "sv"]%string) as [Hm|Hm]; [destruct (emitted_loose _ _ _ _ _ _ _ HS (conj Hj Hj') Hm) as [[X _] _]; lia|].
      assert (W : seated g) by (eapply emitted_mask; [exact HS|split; eauto|]; unfold sv_whole; destruct (String.eqb_spec (h_name g0) "sv") as [Es|Es]; [exfalso; apply Hm; rewrite Es; right; right; left; reflexivity|reflexivity]). apply W. }
    pose proof HS as [_ [_ HB]]. pose proof (frame_to_buf_inv _ _ _ HB) as [_ [_ [_ [HL HC]]]]. pose proof (stack_size_nonneg _ HP) as H0.
    assert (Lb : Z.of_nat (length b) = Z.max (stack_size (fr_stack f')) 60) by (apply copy_stack_len in HC; rewrite HC; fold (zlen (balloc (Z.max (stack_size (fr_stack f')) 60))); rewrite zlen_balloc; lia).
    pose proof (firstn_nth_split _ _ _ _ Hk') as Hsp. unfold start_of. rewrite sum_sizes_stack. assert (X : stack_size (fr_stack f') = stack_size (firstn k (fr_stack f')) + h_size h' + stack_size (skipn (S k) (fr_stack f'))) by (rewrite Hsp at 1; rewrite stack_size_app, stack_size_cons; lia).
    assert (Y : 0 <= stack_size (skipn (S k) (fr_stack f'))) by (apply stack_size_nonneg; apply Forall_forall; intros g Hg; rewrite Forall_forall in HP; apply HP; rewrite <- (firstn_skipn (S k) (fr_stack f')); apply in_or_app; auto). lia.
Qed.

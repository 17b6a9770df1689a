(** One field specification, one header, one frame: the invariant is kept and
    crashes are classified. *)

From Verif Require Import PTextIp Frame PSer SpecParse PParse PMatch SpecFrame PInv.

Lemma size_limit_val : size_limit = 134217728. Proof. reflexivity. Qed.

Lemma BIT_TO_BYTE_le : forall w, 0 <= w -> BIT_TO_BYTE w <= w + 1.
Proof.
  intros w H. destruct (Z.eq_dec w 0) as [->|]; [vm_compute; congruence|]. rewrite BIT_TO_BYTE_pos by lia. lia.
Qed.

Lemma BIT_whole : forall w, 0 <= w -> w mod 8 = 0 -> w <> 0 -> w = 8 * BIT_TO_BYTE w.
Proof. intros w H H1 H2. rewrite BIT_TO_BYTE_pos by lia. lia. Qed.

(** Widths of the fields that are not variable are small. *)
Lemma templates_width : forallb (fun t => forallb (fun f => f_width f <=? 4096) (h_fields t)) hdr_tmpls = true.
Proof. vm_compute. reflexivity. Qed.

Lemma fixed_width : forall t h f, In t hdr_tmpls -> inv t h -> In f (h_fields h) -> isv t f = false ->
  0 <= f_width f <= 4096.
Proof.
  intros t h f Ht I Hin Hv. destruct (inv_field _ _ _ Ht I Hin) as [_ [H _]]. destruct (H Hv) as [_ H0].
  destruct (sig_in _ _ _ _ (i_sig _ _ I) Hin) as [f' [Hin' Hs]].
  pose proof (fsig_isv _ _ _ Hs) as Hi. unfold fsig in Hs. rewrite <- Hi, Hv in Hs.
  pose proof templates_width as HT. rewrite forallb_forall in HT. specialize (HT t Ht). rewrite forallb_forall in HT.
  specialize (HT f' Hin'). replace (f_width f) with (f_width f') in * by congruence. lia.
Qed.

(** Which field is field number [k]. *)
Lemma var_at : forall t h f k p, In t hdr_tmpls -> inv t h -> In f (h_fields h) -> f_parser f = p -> is_var p = true ->
  parser_at (h_fields t) k = Some p -> nth_error (h_fields h) k = Some f.
Proof.
  intros t h f k p Ht I Hin Hp Hv Hk. unfold parser_at in Hk.
  destruct (nth_error (h_fields t) k) as [f'|] eqn:E; [|discriminate]. cbn in Hk.
  pose proof (i_sig _ _ I) as HS.
  assert (HE : nth_error (map (fsig t) (h_fields h)) k = Some (fsig t f')) by (rewrite HS; apply map_nth_error; auto).
  destruct (nth_error (h_fields h) k) as [g|] eqn:Eg.
  - apply (map_nth_error (fsig t)) in Eg as Eg'. rewrite Eg' in HE. apply some_inj in HE. f_equal.
    apply (var_unique t h); auto.
    + eapply nth_error_In; eauto.
    + unfold isv. replace (f_parser g) with (f_parser f') by (unfold fsig in HE; congruence).
      apply some_inj in Hk. rewrite Hk, Hv, orb_true_r. auto.
    + unfold isv. rewrite Hp, Hv, orb_true_r. auto.
  - apply nth_error_None in Eg. assert (nth_error (map (fsig t) (h_fields h)) k = None) by (apply nth_error_None; rewrite map_length; auto). congruence.
Qed.

Lemma opt_fp_eqb_spec : forall a p, opt_fp_eqb a (Some p) = true -> a = Some p.
Proof. intros [a|] p H; [|discriminate]. cbn in H. apply fp_eqb_spec in H. congruence. Qed.

Definition narrow_crash (t : hdr) (w v : string) (c : crash) : Prop :=
  c = Out_of_model \/
  (c = OOB_read /\ exists f, In f (h_fields t) /\ f_name f = w /\ f_parser f = FP_default /\
                   8 < BIT_TO_BYTE (f_width f) /\ too_long v (BIT_TO_BYTE (f_width f))).

Lemma keeps_set_val : forall o, keeps (set_val o).
Proof. intros o f. repeat split. Qed.
Lemma keeps_set_skip : forall b, keeps (set_skip b).
Proof. intros b f. repeat split. Qed.
Lemma fok_set_skip : forall b f, fok f -> fok (set_skip b f).
Proof. intros b f H v Hv. apply (H v). exact Hv. Qed.

Lemma run_parser_ok : forall t h w f v, In t hdr_tmpls -> inv t h -> is_pl t = false ->
  find_field h w = Some f -> f_val f = None -> is_multi (f_parser f) = false ->
  (exists c, run_parser (f_parser f) h v (BIT_TO_BYTE (f_width f)) = Crash c /\ narrow_crash t w v c) \/
  (exists h1 o, run_parser (f_parser f) h v (BIT_TO_BYTE (f_width f)) = Ret (h1, o) /\
                inv t (fmod w (set_val o) h1)).
Proof.
  intros t h w f v Ht I Hpl Hf Hval Hm.
  destruct (find_field_in _ _ _ Hf) as [Hin Hn].
  pose proof (inv_clear _ _ _ _ Ht I Hf) as Hclr.
  destruct (inv_field _ _ _ Ht I Hin) as [Hd [Hfix Hvc]].
  assert (Hiv : isv t f = is_var (f_parser f)) by (unfold isv; rewrite Hpl; auto).
  assert (Hvs : isv t f = false -> forall k o, (forall b, o = Some b -> zlen b = k /\ bytes_ok b) -> 0 <= k <= size_limit ->
            f_width f <= 8 * k -> (f_width f mod 8 = 0 -> f_width f <> 0 -> f_width f = 8 * k) -> inv t (fmod w (set_val o) h)).
  { intros Hf0 k o Ho Hk Hw Hx. apply (inv_set_val t h w f); auto. intros b Hb. destruct (Ho b Hb) as [H1 H2]. split; [lia|]. split; [auto|]. split; [lia|]. split; [intros E; destruct (isv_not_var _ _ Hf0 E); rewrite H1; auto|intros E; destruct (isv_not_tok _ _ Hf0 E)]. }
  pose proof size_limit_val as Hsl.
  destruct (f_parser f) eqn:Ep; cbn [run_parser is_multi is_var] in *; try discriminate.
  - (* default *)
    pose proof (fixed_width _ _ _ Ht I Hin Hiv) as Hw. pose proof (BIT_TO_BYTE_ge (f_width f) ltac:(lia)) as B1.
    pose proof (BIT_TO_BYTE_ge1 (f_width f) ltac:(lia)) as B2. pose proof (BIT_TO_BYTE_le (f_width f) ltac:(lia)) as B3.
    destruct (parse_bytes v (BIT_TO_BYTE (f_width f))) as [o|c] eqn:E.
    + right. exists h, o. split; [reflexivity|]. apply (Hvs Hiv (BIT_TO_BYTE (f_width f))); try lia; [|apply BIT_whole; lia].
      intros b ->. eapply parse_bytes_len; [|exact E]. lia.
    + left. exists c. split; [reflexivity|]. right.
      destruct (parse_bytes_crash v (BIT_TO_BYTE (f_width f)) c ltac:(lia) E) as [H8 [-> Hlong]]. split; auto.
      destruct (sig_in _ _ _ _ (i_sig _ _ I) Hin) as [f' [Hin' Hs]]. pose proof (fsig_isv _ _ _ Hs) as Hi.
      unfold fsig in Hs. rewrite <- Hi, Hiv in Hs. exists f'.
      replace (f_width f') with (f_width f) by congruence. repeat split; auto; congruence.
  - (* field_hex *)
    pose proof (fixed_width _ _ _ Ht I Hin Hiv) as Hw. pose proof (BIT_TO_BYTE_ge (f_width f) ltac:(lia)) as B1.
    pose proof (BIT_TO_BYTE_le (f_width f) ltac:(lia)) as B3.
    destruct (Hfix Hiv) as [Hc _]. unfold field_chk in Hc. rewrite Ep in Hc.
    destruct (parse_field_hex_safe v (BIT_TO_BYTE (f_width f))) as [o [Ho Hb]]; [lia|]. rewrite Ho. cbn [bind].
    right. exists h, o. split; [reflexivity|]. apply (Hvs Hiv (BIT_TO_BYTE (f_width f))); auto; try lia. apply BIT_whole; lia.
  - (* coap code *)
    destruct (Hfix Hiv) as [Hc _]. unfold field_chk in Hc. rewrite Ep in Hc.
    right. exists h, (coap_parse_code v). split; [reflexivity|]. apply (Hvs Hiv 1); try lia.
    intros b Hb. apply coap_code_ok in Hb. auto.
  - (* coap token *)
    specialize (Hvc eq_refl). unfold field_chk in Hvc. rewrite Ep in Hvc. apply opt_fp_eqb_spec in Hvc.
    assert (Hk : nth_error (h_fields h) 5 = Some f) by (eapply (var_at t); eauto).
    unfold coap_parse_token. destruct (parse_var_bytes_hex_safe v 1) as [o [Ho Hb]]; [lia|]. rewrite Ho. cbn [bind].
    assert (Hnone : inv t (fmod w (set_val None) h)) by (apply (inv_set_val t h w f); auto; discriminate).
    destruct o as [b|]; [|right; exists h, None; auto].
    destruct (Hb b eq_refl) as [_ [Hb1 Hb2]].
    destruct ((8 <? zlen b) || (zlen b =? 0)) eqn:E; [right; exists h, None; auto|].
    right. eexists _, _. split; [reflexivity|].
    destruct (inv_resize t h 5 f (zlen b * 8)) as [I' [f' [Hf' [Hw' Hp']]]]; auto; try lia.
    rewrite Hn in Hf'. apply (inv_set_val t _ w f'); auto; [|discriminate].
    intros b' Hb'. apply some_inj in Hb'. subst b'. split; [lia|]. split; [auto|]. split; [lia|]. split; [lia|]. first [intros _; lia|intros E'; congruence].
  - (* profinet *)
    specialize (Hvc eq_refl). unfold field_chk in Hvc. rewrite Ep in Hvc. apply opt_fp_eqb_spec in Hvc.
    assert (Hk : nth_error (h_fields h) 1 = Some f) by (eapply (var_at t); eauto).
    unfold profinet_data_parser. destruct (parse_var_bytes_hex_safe v 40) as [o [Ho Hb]]; [lia|]. rewrite Ho. cbn [bind].
    assert (Hnone : inv t (fmod w (set_val None) h)) by (apply (inv_set_val t h w f); auto; discriminate).
    destruct o as [b|]; [|right; exists h, None; auto].
    destruct (Hb b eq_refl) as [_ [Hb1 Hb2]].
    destruct (size_limit <? zlen b) eqn:E; [left; eexists; split; [reflexivity|left; auto]|].
    right. eexists _, _. split; [reflexivity|].
    destruct (inv_resize t h 1 f (zlen b * 8)) as [I' [f' [Hf' [Hw' Hp']]]]; auto; try lia.
    rewrite Hn in Hf'. apply (inv_set_val t _ w f'); auto; [|discriminate].
    intros b' Hb'. apply some_inj in Hb'. subst b'. split; [lia|]. split; [auto|]. split; [lia|]. split; [lia|]. first [intros _; lia|intros E'; congruence].
  - (* opc *)
    destruct (Hfix Hiv) as [Hc _]. unfold field_chk in Hc. rewrite Ep in Hc.
    destruct (opc16_safe v) as [o [Ho Hb]]. rewrite Ho. cbn [bind].
    right. exists h, o. split; [reflexivity|]. apply (Hvs Hiv 2); auto; lia.
Qed.

(** *** Multi-word values *)

(** No data at all in front of the words. *)
Definition no_data (ws : list string) : Prop := exists n, parse_var_bytes ws = Ret (n, None).

Definition multi_crash (t : hdr) (w : string) (ws : list string) (c : crash) : Prop :=
  c = Out_of_model \/
  (c = Uninit_ptr /\ (exists f, In f (h_fields t) /\ f_name f = w /\ f_parser f = FP_coap_parms) /\ no_data ws).

Lemma mod_first_last : forall A f g, NoDup (names (A ++ [f])) -> mod_first (f_name f) g (A ++ [f]) = A ++ [g f].
Proof.
  induction A as [|x A IH]; intros f g Hnd; cbn [app mod_first].
  - rewrite String.eqb_refl. auto.
  - unfold names in *. cbn [app map] in Hnd. inversion Hnd; subst.
    destruct (String.eqb (f_name f) (f_name x)) eqn:E; [|rewrite IH; auto].
    apply String.eqb_eq in E. exfalso. apply H1. rewrite <- E, map_app. apply in_or_app. right. left. auto.
Qed.

Lemma run_multi_ok : forall t h w f ws, In t hdr_tmpls -> inv t h -> is_pl t = false ->
  find_field h w = Some f -> is_multi (f_parser f) = true ->
  (exists c, run_multi (f_parser f) h w ws = Crash c /\ multi_crash t w ws c) \/
  (exists h1 n, run_multi (f_parser f) h w ws = Ret (h1, n) /\ inv t h1 /\ (n = 0 \/ 2 <= n <= zlen ws)).
Proof.
  intros t h w f ws Ht I Hpl Hf Hm.
  destruct (find_field_in _ _ _ Hf) as [Hin Hn].
  assert (Hvp : is_var (f_parser f) = true) by (destruct (f_parser f); cbn in *; congruence).
  assert (Hiv : isv t f = true) by (unfold isv; rewrite Hpl, Hvp; auto).
  destruct (inv_field _ _ _ Ht I Hin) as [Hd [Hfix Hvc]]. specialize (Hvc Hvp).
  pose proof (isv_varhdr _ _ _ I Hin Hiv) as Hvar.
  destruct (tmpl_var t Ht Hvar) as [_ [_ [Hnd _]]]. rewrite <- (names_sig _ _ _ (i_sig _ _ I)) in Hnd.
  destruct (i_var _ _ I Hvar) as [J1 [J2 J3]]. pose proof (i_size _ _ I) as Jsz.
  assert (Hlen : length (h_fields h) = length (h_fields t)) by (rewrite <- (map_length (fsig t)), (i_sig _ _ I), map_length; auto).
  pose proof size_limit_val as Hsl.
  pose proof (pvb_safe ws) as HP.
  destruct (f_parser f) eqn:Ep; cbn [run_multi is_multi is_var] in *; try discriminate.
  - (* coap-opt val *)
    unfold field_chk in Hvc. rewrite Ep in Hvc. apply andb_true_iff in Hvc. destruct Hvc as [Hl2 Hp1].
    apply Nat.eqb_eq in Hl2. apply opt_fp_eqb_spec in Hp1.
    assert (Hk : nth_error (h_fields h) 1 = Some f) by (eapply (var_at t); eauto).
    rewrite Hl2 in Hlen. destruct (h_fields h) as [|x [|y [|z r]]] eqn:EF; cbn [length] in Hlen; try lia.
    cbn in Hk. apply some_inj in Hk. subst y.
    change [x; f] with ([x] ++ [f]) in *.
    pose proof (seqok_widths _ _ J1) as HW. pose proof (Forall_inv HW) as Hx0. apply Forall_app in HW. destruct HW as [_ HW]. pose proof (Forall_inv HW) as Hf0. cbv beta in Hx0, Hf0.
    rewrite sumw_app in J2. assert (Hsf : sumw [f] = f_width f) by (unfold sumw; cbn; lia).
    unfold coap_parse_option_value, field_parse_multi_var_byte.
    destruct HP as [E|[n [ob [E Hor]]]]; rewrite E; cbn [bind]; [left; eexists; split; [reflexivity|left; auto]|].
    destruct Hor as [[Hn0 ->]|[Hn2 [b [-> Hb]]]].
    { replace (1 <? n) with false by lia. cbn [andb bind]. change (1 <? 0) with false. cbn [andb]. right. exists h, 0. auto. }
    replace (1 <? n) with true by lia. replace (n <=? zlen ws) with true by lia. cbn [andb bind].
    destruct (size_limit <? h_size h + zlen b) eqn:El; [left; eexists; split; [reflexivity|left; auto]|].
    cbn [bind]. replace (1 <? n) with true by lia. replace (n <=? zlen ws) with true by lia. cbn [andb].
    pose proof (zlen_nonneg _ b) as Hb0.
    assert (Hu : u32 (h_size h + zlen b) = h_size h + zlen b) by (unfold u32; apply Z.mod_small; lia).
    set (h1 := set_size _ _).
    assert (Hh1 : h1 = set_size (h_size h + zlen b) (set_fields ([x] ++ [set_width (zlen b * 8) (set_val (Some b) f)]) h)).
    { unfold h1, fmod. rewrite Hu, EF, <- Hn, mod_first_last; auto. }
    assert (Hg : fget h1 w = Ret (set_width (zlen b * 8) (set_val (Some b) f))).
    { unfold fget, find_field. rewrite Hh1. cbn [set_size set_fields h_fields].
      rewrite <- Hn. change (f_name f) with (f_name (set_width (zlen b * 8) (set_val (Some b) f))).
      rewrite find_nodup; auto. apply in_or_app; right; left; auto. }
    rewrite Hg. cbn [bind set_width set_val f_val].
    destruct (forallb (Z.eqb 0) b) eqn:Ez.
    + right. eexists _, n. split; [reflexivity|]. split; [|right; lia].
      assert (Hs1 : h_size h1 = h_size h + zlen b) by (rewrite Hh1; reflexivity).
      rewrite Hs1. replace (h_size h + zlen b - zlen b) with (h_size h) by lia.
      replace (u32 (h_size h)) with (h_size h) by (unfold u32; symmetry; apply Z.mod_small; lia).
      set (f2 := set_width 0 (set_val (Some []) f)).
      assert (EH : fmod w (fun f => set_width 0 (set_val (Some []) f)) h1 = set_size (h_size h + zlen b) (set_fields ([x] ++ [f2]) h)).
      { rewrite Hh1. unfold fmod. cbn [set_size set_fields h_fields]. rewrite <- Hn.
        change (f_name f) with (f_name (set_width (zlen b * 8) (set_val (Some b) f))).
        rewrite mod_first_last; auto. }
      rewrite EH. change (set_size (h_size h) (set_size (h_size h + zlen b) (set_fields ([x] ++ [f2]) h)))
        with (set_size (h_size h) (set_fields ([x] ++ [f2]) h)).
      apply (inv_last t h [x] f f2 []); auto; try lia; try reflexivity.
      * constructor.
      * rewrite zlen_nil. lia.
      * rewrite zlen_nil. lia.
      * congruence.
    + right. eexists _, n. split; [reflexivity|]. split; [|right; lia]. rewrite Hh1.
      apply (inv_last t h [x] f _ b); auto; cbn [set_width set_val f_width]; try lia; try reflexivity; congruence.
  - (* coap-parms *)
    unfold field_chk in Hvc. rewrite Ep in Hvc. apply andb_true_iff in Hvc. destruct Hvc as [Hl1 Hs1].
    apply Nat.eqb_eq in Hl1. rewrite Hl1 in Hlen.
    destruct (h_fields h) as [|x [|y r]] eqn:EF; cbn [length] in Hlen; try lia.
    destruct Hin as [->|[]].
    unfold coap_parse_parms.
    destruct HP as [E|[n [ob [E Hor]]]]; rewrite E; cbn [bind]; [left; eexists; split; [reflexivity|left; auto]|].
    destruct Hor as [[Hn0 ->]|[Hn2 [b [-> Hb]]]].
    { left. eexists. split; [reflexivity|]. right. split; auto. split; [|exists n; auto].
      assert (Hin0 : In f (h_fields h)) by (rewrite EF; left; auto).
      destruct (sig_in _ _ _ _ (i_sig _ _ I) Hin0) as [f' [Hin' Hs]].
      exists f'. unfold fsig in Hs. repeat split; auto; congruence. }
    replace (1 <? n) with true by lia. replace (n <=? zlen ws) with true by lia. cbn [andb].
    destruct (size_limit <? zlen b) eqn:El; [left; eexists; split; [reflexivity|left; auto]|].
    right. eexists _, n. split; [reflexivity|]. split; [|right; lia].
    unfold fmod. rewrite EF. change [f] with ([] ++ [f]). rewrite <- Hn, mod_first_last by auto.
    pose proof (zlen_nonneg _ b) as Hb0. pose proof (zlen_cons _ 255 b) as Hzc.
    apply (inv_last t h [] f _ (255 :: b)); auto; cbn [set_width set_val f_width]; try lia; try reflexivity.
    + constructor; auto. unfold byte_ok; lia.
    + congruence.
Qed.

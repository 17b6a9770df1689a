(** The headers made of the parts of a frame (C82). *)

From Verif Require Import PTextIp PTextNum PTextHex PTextMac PTextAddr Frame PSer SpecParse PParse PMatch SpecFrame PFrame PInv PStep PArgs PSoft PFill PGroup PAll PSafe PAssign PField SpecOrigin POrigin PImage PSum PEmit SpecFill PCheck PCheck2 PLen PKeep PTwice PCoap PSegs PWords SpecLayout PLayout Cmd Exec SpecExec PCmd PPair PExec PReplay SpecWhole PWhole SpecExact PExact SpecForm PForm PForm2.

(** *** Values *)
Definition all_unset (t : hdr) : bool := forallb (fun f => negb (is_some (f_val f))) (h_fields t).

Lemma rows_unset : forallb (fun p => match find_tmpl (fst p) with Some t => all_unset t | None => false end) rows = true.
Proof. vm_compute. reflexivity. Qed.

Lemma unset_value : forall t fld, all_unset t = true -> lookup (vals t) fld = None.
Proof.
  intros t fld H. unfold all_unset in H. unfold vals. induction (h_fields t) as [|f r IH]; [reflexivity|]. cbn [forallb map lookup fst snd] in *. apply andb_true_iff in H. destruct H as [H1 H2].
  destruct (String.eqb fld (f_name f)); [destruct (f_val f); [discriminate|reflexivity]|auto].
Qed.

Lemma vals_names : forall t x, In x (map fst (vals t)) <-> In x (names (h_fields t)).
Proof. intros t x. unfold vals, names. rewrite map_map. cbn [fst]. reflexivity. Qed.

Lemma made_value : forall n asg m h fld, made_header n asg m h ->
  match last_given asg fld with
  | Some s => exists t ft v, find_tmpl n = Some t /\ find_field t fld = Some ft /\ reads ft s v /\ value_of h fld = Some v
  | None => value_of h fld = None
  end.
Proof.
  intros n asg m h fld [r [t [vs [HR [_ [_ [HV [EV _]]]]]]]]. pose proof (value_given t asg vs (vals t) fld HV (vals_names t)) as H.
  rewrite value_lookup, EV. destruct (last_given asg fld) as [s|].
  - destruct H as [ft [v [H1 [H2 H3]]]]. exists t, ft, v. split; [apply (ro_find _ _ _ HR)|auto].
  - rewrite H. apply unset_value. pose proof rows_unset as K. rewrite forallb_forall in K. specialize (K _ (ro_in _ _ _ HR)). cbn [fst] in K. rewrite (ro_find _ _ _ HR) in K. exact K.
Qed.

Lemma given_value : forall h fld, given h fld = is_some (value_of h fld).
Proof. intros h fld. unfold given, value_of. destruct (find_field h fld); reflexivity. Qed.

Lemma made_given : forall n asg m h fld, made_header n asg m h -> given h fld = gives asg fld.
Proof.
  intros n asg m h fld H. rewrite given_value. unfold gives. pose proof (made_value n asg m h fld H) as K. destruct (last_given asg fld); [destruct K as [t [ft [v [_ [_ [_ K]]]]]]|]; rewrite K; reflexivity.
Qed.

Lemma made_any : forall n asg m h l, made_header n asg m h -> existsb (given h) l = existsb (gives asg) l.
Proof. intros n asg m h l H. induction l as [|x l IH]; [reflexivity|]. cbn [existsb]. rewrite IH, (made_given n asg m h x H). reflexivity. Qed.

Lemma made_named : forall p m h, made (p, m) h -> h_name h = part_name p.
Proof.
  intros p m h H. unfold made in H. cbn [fst snd] in H. destruct p as [n asg|ps|num ps|ps]; cbn [part_name].
  - destruct H as [r [t [vs [HR [_ [I _]]]]]]. rewrite (i_name _ _ I). apply (ro_name _ _ _ HR).
  - subst h. reflexivity.
  - destruct H as [x [_ [_ ->]]]. reflexivity.
  - subst h. reflexivity.
Qed.

Lemma made_inv : forall n asg m h t, made_header n asg m h -> find_tmpl n = Some t -> inv t h.
Proof. intros n asg m h t [r [t' [vs [HR [_ [I _]]]]]] Ht. rewrite (ro_find _ _ _ HR) in Ht. apply some_inj in Ht. subst t'. exact I. Qed.

Lemma made_says : forall n asg m h fld off w s x, form (Header n asg) m -> made_header n asg m h -> place m fld = Some (off, w) -> ~ In fld ["-"; "ignore"]%string ->
  last_given asg fld = Some s -> stands_for n fld w s x -> exists v, value_of h fld = Some v /\ positional 256 v mod 2 ^ w = x mod 2 ^ w.
Proof.
  intros n asg m h fld off w s x HF HM HP Hne HG HX. pose proof (made_value n asg m h fld HM) as K. rewrite HG in K. destruct K as [t' [ft' [v' [K1 [K2 [K3 K4]]]]]].
  destruct HM as [r [t [vs [HR [HS _]]]]]. destruct (stands_reads _ _ _ _ _ _ _ _ _ _ HF HR HS HP Hne HX) as [_ [_ [ft [v [F1 [_ [F2 F3]]]]]]].
  rewrite (ro_find _ _ _ HR) in K1. apply some_inj in K1. subst t'. rewrite F1 in K2. apply some_inj in K2. subst ft'. rewrite (reads_fun _ _ _ _ F2 K3) in F3. exists v'. auto.
Qed.

(** *** Data and tokens *)
Definition asg_ok (n : string) (asg : list (string * string)) (m : format) : Prop :=
  forall fld s, In (fld, s) asg -> ~ In fld ["-"; "ignore"]%string /\ exists off w x, place m fld = Some (off, w) /\ stands_for n fld w s x.

Lemma no_sep : forall c h, separator c -> digit c = Some h -> False.
Proof. intros c h H E. unfold separator in H. cbn [In] in H. destruct H as [<-|[<-|[<-|[<-|[]]]]]; discriminate. Qed.

Lemma dump_length : forall d s, hexdump d s -> forall d', hexdump d' s -> length d = length d'.
Proof.
  intros d s H. induction H as [|c d s Hc H IH|c1 c2 h l d s H1 H2 H IH]; intros d' H'; inversion H'; subst; auto; try (exfalso; eapply no_sep; eauto; fail).
  cbn [length]. f_equal. apply IH. auto.
Qed.

Lemma var_fmt : forall t h fld v ft, In t hdr_tmpls -> inv t h -> is_pl t = false -> find_field t fld = Some ft -> is_var (f_parser ft) = true -> value_of h fld = Some v ->
  fmt (h_fields h) = map (fun ft => (f_name ft, if isv t ft then 8 * Z.of_nat (length v) else f_width ft)) (h_fields t).
Proof.
  intros t h fld v ft Ht I Hpl Hf Hv Ev. destruct (inv_find _ _ _ _ I Hf) as [fd [Hd Hs]]. destruct (find_field_in _ _ _ Hd) as [Hin _].
  assert (Hi : isv t fd = true) by (rewrite (fsig_isv _ _ _ Hs); unfold isv; rewrite Hv; apply orb_true_r).
  unfold value_of in Ev. rewrite Hd in Ev.
  assert (HW : f_width fd = 8 * Z.of_nat (length v)).
  { pose proof (i_val _ _ I) as F. rewrite Forall_forall in F. destruct (F fd Hin v) as [_ [_ [_ [F4 _]]]]; [unfold field_data; rewrite Ev; auto|].
    apply F4. left. unfold isv in Hi. rewrite Hpl in Hi. exact Hi. }
  apply fmt_var; [apply I|]. intros g Hg Hgv. rewrite (var_unique _ _ _ _ Ht I Hg Hin Hgv Hi). exact HW.
Qed.

Lemma bits_fmt : forall fs, bits (fmt fs) = sumw fs.
Proof. unfold bits, sumw. induction fs as [|f r IH]; [reflexivity|]. cbn [fmt map fold_right snd]. fold (fmt r). rewrite IH. reflexivity. Qed.

Lemma fmt_lay : forall a b, map lay a = map lay b -> names a = names b -> fmt a = fmt b.
Proof.
  induction a as [|x a IH]; intros [|y b] H N; try discriminate; [reflexivity|]. cbn [map names] in *. fold (names a) in *. fold (names b) in *. cbn [fmt map].
  assert (E1 : lay x = lay y) by congruence. assert (E2 : f_name x = f_name y) by congruence. unfold lay in E1. f_equal; [congruence|]. apply IH; [congruence|unfold names in *; congruence].
Qed.

Lemma in_gives : forall asg fld s, In (fld, s) asg -> gives asg fld = true.
Proof.
  intros asg fld s H. unfold gives. induction asg as [|[n v] r IH]; [destruct H|]. cbn [last_given]. destruct H as [H|H].
  - apply pair_inj in H. destruct H as [-> ->]. rewrite String.eqb_refl. destruct (last_given r fld); reflexivity.
  - specialize (IH H). destruct (last_given r fld); [reflexivity|discriminate].
Qed.

Lemma made_token : forall asg m h s d, made_header "coap" asg m h -> last_given asg "token" = Some s -> hexdump d s -> (1 <= length d <= 8)%nat -> value_of h "token" = Some d.
Proof.
  intros asg m h s d HM HG Hd Hl. pose proof (made_value _ _ _ _ "token"%string HM) as K. rewrite HG in K. destruct K as [t [ft [v [K1 [K2 [K3 K4]]]]]].
  assert (Et : t = HDR_COAP) by (vm_compute in K1; vm_compute; congruence). subst t. cbn in K2. apply some_inj in K2. subst ft. unfold reads in K3. cbn [f_parser] in K3. destruct K3 as [K3 _].
  assert (Hd0 : d <> []) by (destruct d; [cbn in Hl; lia|discriminate]).
  rewrite (parse_var_hex_dump_min d s 1 Hd Hd0 ltac:(lia)) in K3. replace (Z.to_nat 1 - length d)%nat with 0%nat in K3 by lia. cbn [repeat] in K3. rewrite app_nil_r in K3.
  apply ret_inj, some_inj in K3. subst v. exact K4.
Qed.

Lemma made_data : forall asg m h s d, made_header "profinet-rtc" asg m h -> asg_ok "profinet-rtc" asg m -> last_given asg "data" = Some s -> hexdump d s ->
  exists v, value_of h "data" = Some v /\ Z.of_nat (length v) = Z.max 40 (Z.of_nat (length d)).
Proof.
  intros asg m h s d HM HA HG Hd. pose proof (made_value _ _ _ _ "data"%string HM) as K. rewrite HG in K. destruct K as [t [ft [v [K1 [K2 [K3 K4]]]]]].
  assert (Et : t = HDR_PNET_RTC) by (vm_compute in K1; vm_compute; congruence). subst t. cbn in K2. apply some_inj in K2. subst ft. unfold reads in K3. cbn [f_parser] in K3. destruct K3 as [K3 _].
  destruct (HA _ _ (last_given_in _ _ _ HG)) as [_ [off [w [x [_ HX]]]]]. destruct HX as [s x Ho _|s d' E _ _|s d' _ Hd' Hn _]; [exfalso; apply Ho; right; left; reflexivity|discriminate E|].
  rewrite (parse_var_hex_dump_min d' s 40 Hd' Hn ltac:(lia)) in K3. apply ret_inj, some_inj in K3. exists v. split; [exact K4|]. subst v.
  rewrite app_length, repeat_length, (dump_length _ _ Hd _ Hd'). lia.
Qed.

(** *** Sizes *)
Definition plain_chk (p : string * format) : bool :=
  negb (existsb (String.eqb (fst p)) ["igmp"; "mld"; "sv"; "profinet-rtc"; "coap-opt"]%string) &&
  match find_tmpl (fst p) with
  | Some t => (8 * h_size t =? bits (snd p)) && forallb (fun f => negb (is_var (f_parser f)) || (String.eqb (fst p) "coap" && String.eqb (f_name f) "token")) (h_fields t)
  | None => false
  end.
Lemma plain_checked : forallb plain_chk formats = true.
Proof. vm_compute. reflexivity. Qed.

Lemma table_size : forall n m asg h, format_named n m -> (n = "coap"%string -> gives asg "token" = false) -> made_header n asg m h ->
  8 * h_size h = bits m /\ size_after h = h_size h /\ ~ In n ["igmp"; "mld"; "sv"; "profinet-rtc"; "coap-opt"]%string.
Proof.
  intros n m asg h Hn Hc HM. pose proof plain_checked as K. rewrite forallb_forall in K. specialize (K _ Hn). unfold plain_chk in K. cbn [fst snd] in K.
  destruct HM as [r [t [vs [HR [_ [I [_ [_ [HV _]]]]]]]]]. rewrite (ro_find _ _ _ HR) in K. rewrite !andb_true_iff in K. destruct K as [K1 [K2 K3]]. apply negb_true_iff in K1.
  assert (Hni : ~ In n ["igmp"; "mld"; "sv"; "profinet-rtc"; "coap-opt"]%string).
  { intros Hin. assert (existsb (String.eqb n) ["igmp"; "mld"; "sv"; "profinet-rtc"; "coap-opt"]%string = true); [|congruence]. apply existsb_exists. exists n. split; [auto|apply String.eqb_refl]. }
  assert (NV : no_var t asg).
  { intros fld s ft Hin Hf. destruct (find_field_in _ _ _ Hf) as [F1 F2]. rewrite forallb_forall in K3. specialize (K3 _ F1). rewrite orb_true_iff, andb_true_iff, !String.eqb_eq in K3. destruct K3 as [K3|[E1 E2]]; [apply negb_true_iff in K3; auto|].
    exfalso. rewrite F2 in E2. subst fld. pose proof (in_gives _ _ _ Hin). rewrite (Hc E1) in H. discriminate. }
  destruct (HV NV) as [_ ES]. split; [rewrite ES; lia|]. split; [|exact Hni].
  assert (EN : h_name h = n) by (rewrite (i_name _ _ I); apply (ro_name _ _ _ HR)).
  unfold size_after. rewrite EN. cbn [In] in Hni.
  destruct (String.eqb_spec n "igmp"); [exfalso; apply Hni; auto|]. destruct (String.eqb_spec n "mld"); [exfalso; apply Hni; auto|]. destruct (String.eqb_spec n "sv"); [exfalso; apply Hni; auto|].
  destruct (String.eqb_spec n "coap-opt"); [exfalso; apply Hni; auto 8|]. reflexivity.
Qed.

Lemma token_fmt : forall asg m h s d, made_header "coap" asg m h -> last_given asg "token" = Some s -> hexdump d s -> (1 <= length d <= 8)%nat ->
  fmt (h_fields h) = coap_form (8 * Z.of_nat (length d)) /\ 8 * h_size h = sumw (h_fields h).
Proof.
  intros asg m h s d HM HG Hd Hl. pose proof (made_token _ _ _ _ _ HM HG Hd Hl) as Ev. pose proof (made_inv _ _ _ _ HDR_COAP HM eq_refl) as I.
  assert (Ht : In HDR_COAP hdr_tmpls) by (apply (find_tmpl_in "coap"%string); reflexivity).
  split.
  - rewrite (var_fmt HDR_COAP h "token" d (MkField "token" false 0 32 None None FP_coap_token) Ht I eq_refl eq_refl eq_refl Ev). reflexivity.
  - destruct HM as [r [t [vs [HR [_ [_ [_ [_ [_ HT]]]]]]]]]. pose proof (ro_find _ _ _ HR) as Et. assert (t = HDR_COAP) by (vm_compute in Et; vm_compute; congruence). subst t.
    apply HT. intros NV. specialize (NV _ _ _ (last_given_in _ _ _ HG) (eq_refl : find_field HDR_COAP "token" = Some _)). discriminate.
Qed.

Lemma data_fmt : forall asg m h s d, made_header "profinet-rtc" asg m h -> asg_ok "profinet-rtc" asg m -> last_given asg "data" = Some s -> hexdump d s ->
  fmt (h_fields h) = rtc_form (8 * Z.max 40 (Z.of_nat (length d))) /\ 8 * h_size h = sumw (h_fields h).
Proof.
  intros asg m h s d HM HA HG Hd. destruct (made_data _ _ _ _ _ HM HA HG Hd) as [v [Ev El]]. pose proof (made_inv _ _ _ _ HDR_PNET_RTC HM eq_refl) as I.
  assert (Ht : In HDR_PNET_RTC hdr_tmpls) by (apply (find_tmpl_in "profinet-rtc"%string); reflexivity).
  split.
  - rewrite (var_fmt HDR_PNET_RTC h "data" v (MkField "data" false 320 16 None None FP_profinet) Ht I eq_refl eq_refl eq_refl Ev). rewrite El. reflexivity.
  - destruct HM as [r [t [vs [HR [_ [_ [_ [_ [_ HT]]]]]]]]]. pose proof (ro_find _ _ _ HR) as Et. assert (t = HDR_PNET_RTC) by (vm_compute in Et; vm_compute; congruence). subst t.
    apply HT. intros NV. specialize (NV _ _ _ (last_given_in _ _ _ HG) (eq_refl : find_field HDR_PNET_RTC "data" = Some _)). discriminate.
Qed.

Lemma no_data_fmt : forall asg m h, made_header "profinet-rtc" asg m h -> gives asg "data" = false ->
  fmt (h_fields h) = rtc_form 320 /\ 8 * h_size h = sumw (h_fields h).
Proof.
  intros asg m h HM HG. pose proof (made_inv _ _ _ _ HDR_PNET_RTC HM eq_refl) as I.
  destruct HM as [r [t [vs [HR [_ [_ [_ [_ [HV _]]]]]]]]]. pose proof (ro_find _ _ _ HR) as Et. assert (t = HDR_PNET_RTC) by (vm_compute in Et; vm_compute; congruence). subst t.
  destruct HV as [L1 L2].
  { intros fld s ft Hin Hf. pose proof (find_field_in _ _ _ Hf) as [F1 F2]. cbn [HDR_PNET_RTC h_fields In] in F1.
    repeat (destruct F1 as [F1|F1]; [subst ft; try reflexivity; cbn [f_name] in F2; subst fld; rewrite (in_gives _ _ _ Hin) in HG; discriminate|]). destruct F1. }
  split; [|rewrite L2, (sumw_lay _ _ L1); reflexivity]. rewrite (fmt_lay _ _ L1 (names_sig _ _ _ (i_sig _ _ I))). reflexivity.
Qed.

Lemma option_length : forall x v, 0 <= x < 65536 -> Z.of_nat (length v) < 65536 ->
  Z.of_nat (length (option_bytes x v)) = 1 + option_extra x + option_extra (Z.of_nat (length v)) + Z.of_nat (length v).
Proof.
  intros x v Hx Hv. unfold option_bytes. cbn [length]. rewrite !app_length.
  assert (G : forall y, Z.of_nat (length (extension y)) = option_extra y) by (intros y; unfold extension, option_extra; destruct (y <? 13), (y <? 269); reflexivity).
  pose proof (G x). pose proof (G (Z.of_nat (length v))). lia.
Qed.

Lemma option_data_length : forall v, (length (option_data v) <= length v)%nat.
Proof. intros v. unfold option_data. destruct (forallb (Z.eqb 0) v); cbn [length]; lia. Qed.

Lemma number_det : forall s x y, number s x -> number s y -> 0 <= x < 65536 -> 0 <= y < 65536 -> x = y.
Proof.
  intros s x y Hx Hy Bx By. pose proof (number_bytes _ _ 2 Hx ltac:(change (2 ^ 64) with 18446744073709551616; lia) ltac:(lia)) as E1.
  pose proof (number_bytes _ _ 2 Hy ltac:(change (2 ^ 64) with 18446744073709551616; lia) ltac:(lia)) as E2. rewrite E1 in E2. apply ret_inj, some_inj in E2.
  apply (f_equal (positional 256)) in E2. rewrite !positional_be in E2. change (256 ^ Z.of_nat (Z.to_nat 2)) with 65536 in E2. rewrite !Z.mod_small in E2 by lia. exact E2.
Qed.

Lemma form_size : forall p m h, well_put (p, m) -> made (p, m) h -> 8 * size_after h = bits m.
Proof.
  intros p m h [HF HA] HM. cbn [fst snd] in *. pose proof (made_named _ _ _ HM) as EN. unfold made in HM. cbn [fst snd] in HM.
  destruct HF as [n asg m Hn Hc|asg s d Hg Hd Hl|asg|asg Hq|asg|asg s d Hg Hd|asg Hg|p d Hr]; cbn [part_name] in EN.
  - destruct (table_size _ _ _ _ Hn Hc HM) as [T1 [T2 _]]. lia.
  - destruct (token_fmt _ _ _ _ _ HM Hg Hd Hl) as [T1 T2]. unfold size_after. rewrite EN. cbn [String.eqb Ascii.eqb Bool.eqb]. rewrite T2, <- bits_fmt, T1. reflexivity.
  - unfold size_after. rewrite EN. cbn [String.eqb Ascii.eqb Bool.eqb]. unfold is_query. rewrite (made_any _ _ _ _ _ HM). fold (queries asg). unfold igmp_form. destruct (queries asg), (reports asg); reflexivity.
  - unfold size_after. rewrite EN. cbn [String.eqb Ascii.eqb Bool.eqb]. unfold is_query, is_report. rewrite !(made_any _ _ _ _ _ HM). fold (queries asg). fold (reports asg). unfold mld_form. destruct (queries asg), (reports asg); try discriminate; reflexivity.
  - unfold size_after. rewrite EN. cbn [String.eqb Ascii.eqb Bool.eqb]. rewrite (made_any _ _ _ _ _ HM). fold (redbox asg). unfold sv_form. destruct (redbox asg); reflexivity.
  - destruct (data_fmt _ _ _ _ _ HM HA Hg Hd) as [T1 T2]. unfold size_after. rewrite EN. cbn [String.eqb Ascii.eqb Bool.eqb]. rewrite T2, <- bits_fmt, T1. reflexivity.
  - destruct (no_data_fmt _ _ _ HM Hg) as [T1 T2]. unfold size_after. rewrite EN. cbn [String.eqb Ascii.eqb Bool.eqb]. rewrite T2, <- bits_fmt, T1. reflexivity.
  - unfold bits. cbn [fold_right snd]. destruct Hr as [ps|num x ps Hn Hx|ps]; cbn [part_name] in EN; unfold size_after; rewrite EN; cbn [String.eqb Ascii.eqb Bool.eqb].
    + subst h. change (h_size (raw (payload ps))) with (zlen (payload ps)). unfold zlen. lia.
    + destruct HM as [y [Hy [Hy2 ->]]]. assert (y = x) by (eapply number_det; eauto). subst y.
      change (value_of (opt_header x (option_data (payload ps))) "num") with (Some (be_bytes 2 x)). change (value_of (opt_header x (option_data (payload ps))) "val") with (Some (option_data (payload ps))). cbv iota.
      destruct HA as [_ [_ HA]]. pose proof (option_data_length (payload ps)). rewrite option_length by lia. rewrite (Z.mod_small (Z.of_nat _)) by lia.
      assert (E : positional 256 (be_bytes 2 x) mod 65536 = x) by (rewrite positional_be; rewrite Z.mod_small; lia). rewrite E. lia.
    + subst h. unfold parms_header. cbn [h_size]. unfold zlen. cbn [length]. lia.
Qed.

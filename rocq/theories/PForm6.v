(** Frames of parts are emitted (C82): the rest of the frame. *)

From Verif Require Import PTextIp PTextNum PTextHex PTextMac PTextAddr Frame PSer SpecParse PParse PMatch SpecFrame PFrame PInv PStep PArgs PSoft PFill PGroup PAll PSafe PAssign PField SpecOrigin POrigin PImage PSum PEmit SpecFill PCheck PCheck2 PLen PKeep PTwice PCoap PSegs PWords SpecLayout PLayout Cmd Exec SpecExec PCmd PPair PExec PReplay SpecWhole PWhole SpecExact PExact SpecForm PForm PForm2 PForm3 PForm4 PForm5.

(** *** Bytes *)
Lemma slice_prefix : forall (b : list Z) s n d r, slice b s n = d ++ r -> slice b s (length d) = d.
Proof.
  intros b s n d r H. unfold slice in *. assert (Hl : (length d <= n)%nat). { pose proof (firstn_le_length n (skipn s b)) as K. rewrite H, app_length in K. lia. }
  replace (length d) with (min (length d) n) at 1 by lia. rewrite <- firstn_firstn, H, firstn_app, Nat.sub_diag, firstn_all. cbn [firstn]. apply app_nil_r.
Qed.

Lemma render_one : forall h n v fp o, wf_hdr false h -> h_fields h = [MkField n false (zlen v * 8) 0 o (Some v) fp] -> h_size h = zlen v -> render [h] = v.
Proof.
  intros h n v fp o HWf HF HZ. rewrite render_bytes; auto.
  - rewrite HF. cbn [flat_map]. rewrite app_nil_r. unfold fbytes. cbn [f_width field_data f_val]. replace (length v - Z.to_nat (zlen v * 8 / 8))%nat with 0%nat by (unfold zlen; lia). reflexivity.
  - rewrite HF. constructor; [cbn [f_width]; lia|constructor].
  - rewrite HF. cbn [map lay seqok f_off f_width]. pose proof (zlen_nonneg _ v). lia.
  - rewrite HF, HZ. unfold sumw. cbn [fold_right f_width]. lia.
Qed.

Lemma split_nibble : forall x, 0 <= x < 65536 -> opt_split x = (nibble x, extension x) /\ 0 <= nibble x < 16.
Proof.
  intros x Hx. unfold opt_split, nibble, extension. destruct (Z.ltb_spec 12 x), (Z.ltb_spec x 13); try lia.
  - destruct (Z.ltb_spec 268 x), (Z.ltb_spec x 269); try lia; (split; [|lia]).
    + assert (E : u16 (x - 269) = x - 269) by (unfold u16; lia). rewrite E. rewrite Z.shiftr_div_pow2 by lia. change 255 with (Z.ones 8). rewrite Z.land_ones by lia. reflexivity.
    + assert (E : u8 (x - 13) = x - 13) by (unfold u8; lia). rewrite E. reflexivity.
  - split; [reflexivity|lia].
Qed.

Lemma opt_bytes_spec : forall x v, 0 <= x < 65536 -> Z.of_nat (length v) < 65536 -> opt_bytes (be_bytes 2 x) v ++ v = option_bytes x v.
Proof.
  intros x v Hx Hv. unfold opt_bytes, option_bytes.
  assert (E1 : u16 (nth 0 (be_bytes 2 x) 0 * 256 + nth 1 (be_bytes 2 x) 0) = x).
  { pose proof (positional_be 2 x) as P. change (256 ^ Z.of_nat 2) with 65536 in P. rewrite Z.mod_small in P by lia. rewrite positional_be_val in P.
    destruct (two_elems (be_bytes 2 x) eq_refl) as [y [z E]]. rewrite E in *. unfold be_val in P. cbn [fold_left] in P. cbn [nth]. unfold u16. rewrite Z.mod_small by lia. lia. }
  assert (E2 : u16 (zlen v) = Z.of_nat (length v)) by (unfold u16, zlen; rewrite Z.mod_small; lia). rewrite E1, E2.
  destruct (split_nibble x Hx) as [S1 N1]. destruct (split_nibble (Z.of_nat (length v)) ltac:(lia)) as [S2 N2]. rewrite S1, S2. cbn [app]. rewrite <- app_assoc. f_equal.
  destruct (nibbles _ _ N1 N2) as [K1 K2]. cbv zeta in K1, K2. lia.
Qed.

Lemma zero_number : forall b p w, (forall j, 0 <= j < Z.of_nat w -> bit_at b (p + j) = false) -> number_at b p w = 0.
Proof.
  intros b p w H. rewrite (number_at_ext w b [] p 0).
  - induction w as [|w IH]; [reflexivity|]. cbn [number_at]. rewrite IH by (intros; apply H; lia). unfold bit_at. destruct (Z.to_nat _); cbn [nth]; rewrite Z.testbit_0_l; reflexivity.
  - intros k Hk. rewrite H by auto. unfold bit_at. destruct (Z.to_nat _); cbn [nth]; rewrite Z.testbit_0_l; reflexivity.
Qed.

Section Emitted.
Context (its : list item) (hs : list hdr) (HW : Forall well_put its) (HM : Forall2 made its hs) (HT : total its <= 8 * 130000)
  (f' : frame) (b : list Z) {ws : list string} {mk : bool} (HS : serialised ws (MkFrame hs 0 mk) f' b).

Local Notation fr := (MkFrame hs 0 mk).

(** *** Parts that are bytes *)
Lemma raw_part : forall k p m d, nth_error its k = Some (p, m) -> raw_bytes p d -> slice b (Z.to_nat (begins its k)) (length d) = d.
Proof.
  intros k p m d Hk HR. destruct (made_nth _ _ HM _ _ Hk) as [h [H1 H2]]. change (nth_error (fr_stack fr) k = Some h) in H1.
  destruct (serialised_emitting _ _ _ _ _ _ HS H1) as [t [h' E]].
  pose proof (e_wf _ _ _ _ _ _ _ E) as W. destruct (wf_firstn _ k W) as [_ Wk]. rewrite (em_tail _ _ _ _ _ _ _ E) in Wk.
  assert (G : render [h'] = d -> slice b (Z.to_nat (begins its k)) (length d) = d).
  { intros G. pose proof (em_message _ _ _ _ _ _ _ E) as M. rewrite render_cons in M by auto. rewrite G in M. unfold message in M. rewrite (at_byte_part its hs HW HM f' b HS) in M. eapply slice_prefix; eauto. }
  apply G. clear G. pose proof (e_run _ _ _ _ _ _ _ E) as RUN. pose proof (made_named _ _ _ H2) as EN. destruct HR as [ps|num x ps Hn Hx|ps]; unfold made in H2; cbn [fst snd part_name] in *.
  - subst h. assert (t = HDR_PAYLOAD) by (eapply emitting_name; [exact E|reflexivity|vm_compute; reflexivity]). subst t.
    change (h_fill HDR_PAYLOAD) with FL_none in RUN. cbn [run_fill] in RUN. apply ret_inj in RUN. apply mid_inj in RUN. subst h'.
    eapply render_one; [apply (Forall_inv Wk)|reflexivity|reflexivity].
  - destruct H2 as [y [Hy [Hy2 ->]]]. assert (y = x) by (eapply number_det; eauto). subst y. assert (t = HDR_COAP_OPTIONS) by (eapply emitting_name; [exact E|reflexivity|vm_compute; reflexivity]). subst t.
    destruct (opt_eff _ _ _ _ _ _ E) as [s0 [s1 [w1 [size [v0 [v1 [Eh [W1 [W2 [W3 H]]]]]]]]]]. set (v := option_data (payload ps)) in *.
    assert (V0 : v0 = Some (be_bytes 2 x)) by (change (Some (be_bytes 2 x)) with (value_of (opt_header x v) "num"); rewrite Eh; reflexivity).
    assert (V1 : v1 = Some v) by (change (Some v) with (value_of (opt_header x v) "val"); rewrite Eh; reflexivity). subst v0 v1.
    destruct H as [Eh' [Hw [Hb [Hdb Hdl]]]]. set (num2 := be_bytes 2 x) in *. destruct (opt_bytes_ok num2 v) as [O1 O2].
    assert (Hlen : Z.of_nat (length v) < 65536). { rewrite Forall_forall in HW. destruct (HW _ (nth_error_In _ _ Hk)) as [_ HA]. cbn [fst snd] in HA. destruct HA as [_ [_ HA]]. pose proof (option_data_length (payload ps)). unfold v. lia. }
    assert (ER : render [h'] = opt_bytes num2 v ++ v).
    { rewrite render_bytes.
      - rewrite Eh'. cbn [opt_filled h_fields flat_map]. rewrite app_nil_r. unfold fbytes. cbn [f_width field_data f_val]. rewrite Hw. f_equal.
        + replace (length (opt_bytes num2 v) - Z.to_nat (8 * zlen (opt_bytes num2 v) / 8))%nat with 0%nat by (unfold zlen; lia). reflexivity.
        + replace (length v - Z.to_nat (8 * zlen v / 8))%nat with 0%nat by (unfold zlen; lia). reflexivity.
      - apply Forall_inv in Wk. exact Wk.
      - rewrite Eh'. cbn [opt_filled h_fields]. constructor; [cbn [f_width]; lia|constructor; [cbn [f_width]; lia|constructor]].
      - rewrite Eh'. cbn [opt_filled h_fields map lay seqok f_off f_width]. lia.
      - rewrite Eh'. unfold sumw. cbn [opt_filled h_fields h_size fold_right f_width]. lia. }
    rewrite ER. apply opt_bytes_spec; auto.
  - subst h. assert (t = HDR_COAP_PARMS) by (eapply emitting_name; [exact E|reflexivity|vm_compute; reflexivity]). subst t.
    change (h_fill HDR_COAP_PARMS) with FL_none in RUN. cbn [run_fill] in RUN. apply ret_inj in RUN. apply mid_inj in RUN. subst h'.
    eapply render_one; [apply (Forall_inv Wk)|reflexivity|reflexivity].
Qed.

(** *** The token length *)
Lemma tkl_part : forall k asg m off w, nth_error its k = Some (Header "coap" asg, m) -> place m "tkl" = Some (off, w) -> last_given asg "tkl" = None ->
  number_at b (total (firstn k its) + off) (Z.to_nat w) = match place m "token" with Some (_, w) => w / 8 | None => 0 end.
Proof.
  intros k asg m off w Hk HP Hg. rewrite (field_part its hs HW HM f' b HS). destruct (part_made its hs HW HM (mk := mk) _ _ _ _ Hk) as [h [H1 [H2 [H3 [HF HA]]]]].
  remember (Header "coap" asg) as p eqn:Ep.
  destruct HF as [n0 a0 m Hn Hc|a0 s d Hgt Hd Hl|a0|a0 Hq|a0|a0 s d Hgt Hd|a0 Hgt|p d Hr]; try discriminate Ep; [| |subst p; inversion Hr]; assert (a0 = asg) by congruence; subst a0.
  - assert (n0 = "coap"%string) by congruence. subst n0. specialize (Hc eq_refl).
    assert (Em : m = coap5).
    { assert (Em : find (fun q => String.eqb (fst q) "coap") formats = Some ("coap"%string, m)) by (apply find_format; exact Hn).
      cbn in Em. apply some_inj in Em. apply pair_inj in Em. destruct Em as [_ Em]. rewrite <- Em. reflexivity. }
    subst m. assert (Ho : off = 4 /\ w = 4) by (cbn in HP; apply some_inj in HP; apply pair_inj in HP; lia). destruct Ho as [-> ->]. change (place coap5 "token") with (@None (Z * Z)). cbv iota.
    destruct (named_emitting _ _ _ _ k "coap" HDR_COAP HS) as [h0 [h' [E [_ Hk2]]]]; [exists h; auto|reflexivity|]. assert (h0 = h) by congruence. subst h0.
    assert (Gv : forall fld, gives asg fld = false -> forall fl, find_field h fld = Some fl -> f_val fl = None).
    { intros fld Hf fl Hfl. pose proof (made_value _ _ _ _ fld H2) as K. unfold gives in Hf. destruct (last_given asg fld); [discriminate|]. unfold value_of in K. rewrite Hfl in K. exact K. }
    pose proof (e_inv _ _ _ _ _ _ _ E) as I. destruct (inv_find _ _ _ _ I (eq_refl : find_field HDR_COAP "token" = Some _)) as [tok [T1 _]]. destruct (inv_find _ _ _ _ I (eq_refl : find_field HDR_COAP "tkl" = Some _)) as [tkl [K1 _]].
    pose proof (Gv _ Hc _ T1) as T2. pose proof (Gv "tkl"%string ltac:(unfold gives; rewrite Hg; reflexivity) _ K1) as K2. pose proof (inv_def _ _ _ _ I K1) as K3. change (f_def tkl = Some [0]) in K3.
    pose proof (e_run _ _ _ _ _ _ _ E) as HR. change (h_fill HDR_COAP) with FL_coap in HR. cbn [run_fill] in HR. unfold coap_fill_defaults in HR. mid HR. cbn [bind] in HR.
    unfold fget in HR. rewrite K1, T1 in HR. cbn [bind] in HR. rewrite K2, T2 in HR. apply ret_inj in HR. apply mid_inj in HR.
    destruct (coap_shape _ I) as [x [Eh [W1 [W2 W3]]]].
    destruct (seq_at_place h "tkl" 4 4) as [P1 [P2 [P3 P4]]].
    { apply (i_var _ _ I eq_refl). }
    { rewrite Eh. reflexivity. }
    pose proof (i_var _ _ I eq_refl) as [_ [K _]].
    destruct (placed _ _ _ _ h h' "tkl" 4 4 tkl false (e_buf _ _ _ _ _ _ _ E) (e_wf _ _ _ _ _ _ _ E) (e_dst _ _ _ _ _ _ _ E)) as [_ Q]; auto; try lia.
    + rewrite <- HR. apply keeps_refl.
    + rewrite <- HR. apply refl_settled.
    + rewrite (Q K2 eq_refl), K3. reflexivity.
  - pose proof (made_token _ _ _ _ _ H2 Hgt Hd Hl) as Ev. destruct (token_emitted _ _ _ _ _ _ _ HS H1 H3 Ev) as [_ [_ T]].
    assert (Ho : off = 4 /\ w = 4) by (cbn in HP; apply some_inj in HP; apply pair_inj in HP; lia). destruct Ho as [-> ->].
    change (Z.to_nat 4) with 4%nat. rewrite T by (rewrite (made_given _ _ _ _ _ H2); unfold gives; rewrite Hg; reflexivity).
    change (place (coap_form (8 * Z.of_nat (length d))) "token") with (Some (32, 8 * Z.of_nat (length d))). cbv iota. lia.
Qed.

(** *** Bits without a name *)
Lemma unset_nameless : forall k n asg m off w, form (Header n asg) m -> place m "-" = Some (off, w) -> unset its b k n m "-" = 0.
Proof.
  intros k n asg m off w HF HP. unfold unset.
  assert (G : length_field n "-" = None /\ type_field n "-" = None /\ preset_value n "-" = 0).
  { remember (Header n asg) as p eqn:Ep.
    destruct HF as [n0 a0 m Hn Hc|a0 s d Hg Hd Hl|a0|a0 Hq|a0|a0 s d Hg Hd|a0 Hg|p d Hr].
    - assert (n0 = n) by congruence. subst n0. pose proof hidden_checked as HC. rewrite forallb_forall in HC. specialize (HC _ Hn). unfold hid_chk in HC. cbn [fst snd] in HC. rewrite HP in HC.
      destruct (find_tmpl n) as [t|]; [|discriminate]. rewrite !andb_true_iff in HC. destruct HC as [[_ C8] C9]. destruct (length_field n "-"); [discriminate|]. destruct (type_field n "-"); [discriminate|]. split; [auto|]. split; [auto|]. lia.
    - discriminate HP.
    - destruct (reports a0), (queries a0); discriminate HP.
    - destruct (reports a0), (queries a0); discriminate HP.
    - assert (n = "sv"%string) by congruence. subst n. split; [reflexivity|split; reflexivity].
    - discriminate HP.
    - discriminate HP.
    - subst p. inversion Hr. }
  destruct G as [-> [-> ->]]. change (String.eqb "-" "chksum") with false. change (String.eqb "-" "tkl") with false. rewrite andb_false_r. reflexivity.
Qed.

Lemma earlier : forall fs j n, first_namedb fs j n = false -> exists i g, (i < j)%nat /\ nth_error fs i = Some g /\ f_name g = n.
Proof.
  intros fs j n H. unfold first_namedb in H. apply negb_false_iff in H. apply existsb_exists in H. destruct H as [g [H1 H2]]. apply String.eqb_eq in H2.
  apply In_nth_error in H1. destruct H1 as [i Hi]. assert (Hlt : (i < j)%nat) by (assert (nth_error (firstn j fs) i <> None) by congruence; apply nth_error_Some in H; rewrite firstn_length in H; lia).
  exists i, g. split; [auto|]. split; [|auto]. rewrite nth_firstn in Hi by auto. exact Hi.
Qed.

Lemma hidden_table : forall k n asg m off w, nth_error its k = Some (Header n asg, m) -> format_named n m -> place m "-" = Some (off, w) ->
  number_at b (total (firstn k its) + off) (Z.to_nat w) = 0.
Proof.
  intros k n asg m off w Hk Hn HP. rewrite (field_part its hs HW HM f' b HS). destruct (part_made its hs HW HM (mk := mk) _ _ _ _ Hk) as [h [H1 [H2 [H3 [HF HA]]]]].
  pose proof hidden_checked as HC. rewrite forallb_forall in HC. specialize (HC _ Hn). unfold hid_chk in HC. cbn [fst snd] in HC. rewrite HP in HC.
  destruct (find_tmpl n) as [t|] eqn:Et; [|discriminate]. rewrite !andb_true_iff in HC. destruct HC as [[[[[[[[C1 C2] C3] C4] C5] C6] C7] C8] C9].
  apply negb_true_iff in C5. clear C8 C9.
  apply existsb_exists in C1. destruct C1 as [j [_ C1]]. rewrite andb_true_iff in C1. destruct C1 as [C1 C8]. destruct (nth_error (h_fields t) j) as [g|] eqn:Ej; [|discriminate].
  rewrite andb_true_iff in C8. destruct C8 as [C8 C9]. apply negb_true_iff in C8.
  destruct (named_emitting _ _ _ _ k n t HS) as [h0 [h' [E [_ Hk2]]]]; [exists h; auto|auto|]. assert (h0 = h) by congruence. subst h0.
  pose proof (e_inv _ _ _ _ _ _ _ E) as I.
  (* the value of the field is the template's, which has none *)
  assert (HV : exists g', nth_error (h_fields h) j = Some g' /\ f_name g' = f_name g /\ f_val g' = None /\ f_def g' = None).
  { destruct H2 as [r [t2 [vs [HR [_ [_ [_ [EV _]]]]]]]]. rewrite (ro_find _ _ _ HR) in Et. apply some_inj in Et. subst t2.
    assert (V : nth_error (vals h) j = Some (f_name g, f_val g)).
    { rewrite EV. apply nth_set_all; [unfold vals; rewrite nth_error_map, Ej; reflexivity|]. destruct (earlier _ _ _ C8) as [i [g2 [G1 [G2 G3]]]].
      exists i, (f_name g2, f_val g2). split; [auto|]. split; [unfold vals; rewrite nth_error_map, G2; reflexivity|exact G3]. }
    unfold vals in V. rewrite nth_error_map in V. destruct (nth_error (h_fields h) j) as [g'|] eqn:Eg; [|discriminate]. cbn [option_map] in V. apply some_inj in V. apply pair_inj in V. destruct V as [V1 V2].
    exists g'. split; [auto|]. split; [auto|]. pose proof (f_equal (fun l => nth_error l j) (i_sig _ _ I)) as S. cbv beta in S. rewrite !nth_error_map, Eg, Ej in S. cbn [option_map] in S. apply some_inj in S. unfold fsig in S.
    destruct (f_val g); [discriminate|]. destruct (f_def g) eqn:Ed; [discriminate|]. split; [auto|congruence]. }
  destruct HV as [g' [G1 [G2 [G3 G4]]]].
  destruct (emitting_tail _ _ _ _ _ _ _ E) as [WhB [WB [Wh Wh']]]. pose proof (e_run _ _ _ _ _ _ _ E) as HR.
  destruct (inv_layout _ _ I C5) as [N1 [N2 N3]].
  assert (C8' : ~ first_named (h_fields h) j (f_name g')).
  { intros HFst. destruct (earlier _ _ _ C8) as [i [x [Hi [Hx Ex]]]]. assert (Q : nth_error (names (h_fields h)) i = Some (f_name x)) by (rewrite N1; unfold names; rewrite nth_error_map, Hx; reflexivity).
    unfold names in Q. rewrite nth_error_map in Q. destruct (nth_error (h_fields h) i) as [y|] eqn:Ey; [|discriminate]. cbn [option_map] in Q. apply some_inj in Q. apply (HFst i y Hi Ey). congruence. }
  assert (G5 : nth_error (h_fields h') j = Some g').
  { destruct (h_fill t); try discriminate C7; cbn [run_fill] in HR.
    - apply ret_inj in HR. apply mid_inj in HR. subst h'. exact G1.
    - apply ptp_eff in HR; [|auto|destruct Wh; lia]. subst h'. unfold setd. destruct (given h "hdr-messageLength"); [exact G1|].
      unfold put, fmod. cbn [set_fields h_fields]. apply (nth_mod_first "hdr-messageLength" _ _ _ _ G1).
      destruct (String.eqb_spec (f_name g') "hdr-messageLength") as [Eg|Eg]; [right; rewrite <- Eg; exact C8'|auto]. }
  destruct (em_layout _ _ _ _ _ _ _ E C6 C5) as [L1 [L2 L3]]. rewrite <- L2 in C1. destruct (lone_chk_spec _ _ _ _ C1) as [fl [F1 [F2 F3]]].
  assert (fl = g') by (destruct F1; congruence). subst fl. unfold field_at. rewrite <- F2, <- F3.
  rewrite (emitted_lone _ _ _ _ _ _ _ (e_buf _ _ _ _ _ _ _ E) (e_wf _ _ _ _ _ _ _ E) (e_dst _ _ _ _ _ _ _ E) F1) by (unfold within; rewrite F2, F3, L3; lia).
  unfold field_data. rewrite G3, G4. reflexivity.
Qed.

Lemma hidden_sv : forall k asg, nth_error its k = Some (Header "sv" asg, sv_form (redbox asg)) -> redbox asg = false -> number_at b (total (firstn k its) + 96) 16 = 0.
Proof.
  intros k asg Hk Hr. destruct (part_made its hs HW HM (mk := mk) _ _ _ _ Hk) as [h [H1 [H2 [H3 [HF HA]]]]].
  destruct (named_emitting _ _ _ _ k "sv" HDR_SV HS) as [h0 [h' [E [_ Hk2]]]]; [exists h; auto|reflexivity|]. assert (h0 = h) by congruence. subst h0.
  destruct (sv_eff _ _ _ _ _ _ E) as [s [v [Eh Eh']]]. change tlv2_fields with ["tlv2_type"; "tlv2_len"; "tlv2_mac"]%string in Eh'. rewrite (made_any _ _ _ _ _ H2) in Eh'. fold (redbox asg) in Eh'. rewrite Hr in Eh'.
  apply zero_number. intros j Hj. pose proof (e_buf _ _ _ _ _ _ _ E) as HB. pose proof HS as [[n HAc] [HReg _]].
  pose proof (accepted_well_formed _ _ _ _ _ HAc HReg HB) as WF. apply frame_to_buf_inv in HB. destruct HB as [_ [_ [_ [_ HB]]]].
  destruct (stack_bits _ _ WF HB) as [SB _]. destruct (begins_bits its k HW) as [B1 _]. rewrite B1, <- (at_part its hs HW HM f' b HS). rewrite <- Z.add_assoc.
  rewrite (SB k h' (96 + j) (e_dst _ _ _ _ _ _ _ E)) by (rewrite Eh'; cbn [sv_short h_size]; lia).
  apply hdr_bit_miss. intros g Hg. right. rewrite Eh' in Hg. cbn [sv_short h_fields In] in Hg.
  repeat (destruct Hg as [Hg|Hg]; [subst g; cbn [f_off f_width]; lia|]). destruct Hg.
Qed.

Lemma hidden_part : forall k n asg m off w, nth_error its k = Some (Header n asg, m) -> place m "-" = Some (off, w) ->
  number_at b (total (firstn k its) + off) (Z.to_nat w) = 0.
Proof.
  intros k n asg m off w Hk HP. destruct (part_made its hs HW HM (mk := mk) _ _ _ _ Hk) as [h [_ [_ [_ [HF _]]]]]. remember (Header n asg) as p eqn:Ep.
  destruct HF as [n0 a0 m Hn Hc|a0 s d Hg Hd Hl|a0|a0 Hq|a0|a0 s d Hg Hd|a0 Hg|p d Hr].
  - assert (n0 = n) by congruence. subst n0. eapply hidden_table; eauto.
  - discriminate HP.
  - destruct (reports a0), (queries a0); discriminate HP.
  - destruct (reports a0), (queries a0); discriminate HP.
  - destruct (redbox a0) eqn:Er; [discriminate HP|]. assert (Ho : off = 96 /\ w = 16) by (cbn in HP; apply some_inj in HP; apply pair_inj in HP; lia). destruct Ho as [-> ->].
    apply (hidden_sv k a0); [rewrite Er; exact Hk|exact Er].
  - discriminate HP.
  - discriminate HP.
  - subst p. inversion Hr.
Qed.

(** *** Everything *)
Definition oth_chk (n : string) (m : format) : bool :=
  forallb (fun q => negb (is_worked_out n (fst q)) || String.eqb (fst q) "chksum" || (String.eqb n "coap" && String.eqb (fst q) "tkl")) m.

Lemma others_part : forall n asg m fld off w, form (Header n asg) m -> place m fld = Some (off, w) -> is_worked_out n fld = true -> fld <> "chksum"%string ->
  length_field n fld = None -> type_field n fld = None -> n = "coap"%string /\ fld = "tkl"%string.
Proof.
  intros n asg m fld off w HF HP Hwo Hne HL HY. destruct (place_in _ _ _ _ _ HP) as [q Hq].
  assert (G : oth_chk n m = true -> n = "coap"%string /\ fld = "tkl"%string).
  { unfold oth_chk. intros K. rewrite forallb_forall in K. specialize (K _ Hq). cbn [fst] in K. rewrite Hwo in K. apply String.eqb_neq in Hne. rewrite Hne in K. cbn [negb orb] in K. rewrite andb_true_iff, !String.eqb_eq in K. exact K. }
  remember (Header n asg) as p eqn:Ep.
  destruct HF as [n0 a0 m Hn Hc|a0 s d Hg Hd Hl|a0|a0 Hq0|a0|a0 s d Hg Hd|a0 Hg|p d Hr].
  - assert (n0 = n) by congruence. subst n0. pose proof others_checked as HC. rewrite forallb_forall in HC. specialize (HC _ Hn). unfold other_chk in HC. cbn [fst snd] in HC. rewrite forallb_forall in HC.
    specialize (HC _ Hq). cbn [fst] in HC. rewrite Hwo, HL, HY in HC. apply String.eqb_neq in Hne. rewrite Hne in HC. cbn [negb orb] in HC. rewrite orb_false_r, andb_true_iff, !String.eqb_eq in HC. exact HC.
  - assert (n = "coap"%string) by congruence. subst n. apply G. reflexivity.
  - assert (n = "igmp"%string) by congruence. subst n. apply G. destruct (reports a0), (queries a0); reflexivity.
  - assert (n = "mld"%string) by congruence. subst n. apply G. destruct (reports a0), (queries a0); reflexivity.
  - assert (n = "sv"%string) by congruence. subst n. apply G. destruct (redbox a0); reflexivity.
  - assert (n = "profinet-rtc"%string) by congruence. subst n. apply G. reflexivity.
  - assert (n = "profinet-rtc"%string) by congruence. subst n. apply G. reflexivity.
  - subst p. inversion Hr.
Qed.

Lemma tkl_worked : is_worked_out "coap" "tkl" = true.
Proof. reflexivity. Qed.

Lemma emitted_spelled : addressed its -> spelled its b.
Proof.
  intros HAd. destruct (total_ok its HW) as [T1 T2]. pose proof (emitted_size its hs HW HM f' b HS) as HL. unfold zlen in HL. constructor.
  - exact HL.
  - apply (bytes_b hs f' b HS).
  - exact T2.
  - intros k n asg m fld off w Hk HP. destruct (part_made its hs HW HM (mk := mk) _ _ _ _ Hk) as [h [H1 [H2 [H3 [HF HA]]]]].
    destruct (String.eqb_spec fld "-") as [->|Hne].
    + destruct (last_given asg "-") as [s|] eqn:Eg; [exfalso; destruct (HA _ _ (last_given_in _ _ _ Eg)) as [K _]; apply K; left; reflexivity|].
      rewrite (unset_nameless k n asg m off w HF HP). eapply hidden_part; eauto.
    + destruct (part_laid its hs HW HM f' b HS _ _ _ _ _ _ _ _ Hk H1 HP Hne) as [L1 L2]. destruct (last_given asg fld) as [s|] eqn:Eg.
      * intros x Hx. destruct (HA _ _ (last_given_in _ _ _ Eg)) as [K _]. destruct (made_says _ _ _ _ _ _ _ _ _ HF H2 HP K Eg Hx) as [v [V1 V2]]. rewrite (field_part its hs HW HM f' b HS), (L1 v V1). exact V2.
      * assert (Hg : gives asg fld = false) by (unfold gives; rewrite Eg; reflexivity). unfold unset.
        destruct (length_field n fld) as [u|] eqn:El; [eapply (length_part its hs HW HM f' b HS); eauto|].
        destruct (type_field n fld) as [[w' d]|] eqn:Ety; [eapply (type_part its hs HW HM f' b HS); eauto|].
        destruct (String.eqb_spec fld "chksum") as [->|Hnc]; [eapply (chksum_part its hs HW HM HT f' b HS); eauto|].
        destruct (is_worked_out n fld) eqn:Ew.
        -- destruct (others_part _ _ _ _ _ _ HF HP Ew Hnc El Ety) as [-> ->]. cbn [String.eqb Ascii.eqb Bool.eqb andb]. eapply tkl_part; eauto.
        -- assert (Ht : String.eqb n "coap" && String.eqb fld "tkl" = false). { destruct (String.eqb_spec n "coap") as [->|]; [|reflexivity]. destruct (String.eqb_spec fld "tkl") as [->|]; [|reflexivity]. rewrite tkl_worked in Ew. discriminate. }
           rewrite Ht, (field_part its hs HW HM f' b HS). rewrite <- H3. apply L2; [|rewrite H3; exact Ew]. pose proof (made_value _ _ _ _ fld H2) as K. rewrite Eg in K. exact K.
  - apply raw_part.
  - intros i Hi. destruct (Nat.lt_ge_cases i (length b)) as [Hlt|Hge]; [|apply nth_overflow; auto]. pose proof HS as [[n HAc] [HReg HB]].
    eapply emitted_tail; [exact HB|eapply accepted_well_formed; eauto|]. rewrite (whole_size its hs HW HM f' b HS). lia.
Qed.
End Emitted.

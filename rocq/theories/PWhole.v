(** From the words of a frame to its bytes (C65). *)

From Verif Require Import PTextIp PTextNum PTextHex PTextMac PTextAddr Frame PSer SpecParse PParse PMatch SpecFrame PFrame PInv PStep PArgs PSoft PFill PGroup PAll PSafe PAssign PField SpecOrigin POrigin PImage PSum PEmit SpecFill PCheck PCheck2 PLen PKeep PTwice PCoap PSegs PWords SpecLayout PLayout Cmd Exec SpecExec PCmd PPair PExec PReplay SpecWhole.

(** *** Values *)
Lemma positional_app : forall base a b, positional base (a ++ b) = positional base a * base ^ Z.of_nat (length b) + positional base b.
Proof.
  induction a as [|x a IH]; intros b; cbn [app positional]; [lia|]. rewrite IH, app_length, Nat2Z.inj_add, Z.pow_add_r by lia. lia.
Qed.

Lemma positional_groups : forall gs, positional 256 (flat_map group_bytes gs) = positional 65536 gs.
Proof.
  induction gs as [|g gs IH]; [reflexivity|]. cbn [flat_map]. rewrite positional_app, IH. cbn [positional length group_bytes].
  assert (Hl : forall l, length (flat_map group_bytes l) = (2 * length l)%nat) by (induction l as [|x l IHl]; [auto|]; cbn [flat_map]; rewrite app_length, IHl; cbn [length group_bytes]; lia).
  rewrite Hl, Nat2Z.inj_mul, Z.pow_mul_r by lia. change (256 ^ Z.of_nat 2) with 65536.
  change (Z.of_nat 1) with 1. change (Z.of_nat 0) with 0. rewrite Z.pow_1_r, Z.pow_0_r. f_equal. f_equal. lia.
Qed.

Lemma groups_zeros : forall n, flat_map group_bytes (zeros n) = zeros (2 * n).
Proof. unfold zeros. induction n as [|n IH]; [reflexivity|]. cbn [repeat flat_map]. rewrite IH. replace (2 * S n)%nat with (S (S (2 * n))) by lia. reflexivity. Qed.

Lemma positional_bytes : forall l, bytes_ok l -> 0 <= positional 256 l < 256 ^ Z.of_nat (length l).
Proof.
  intros l H. induction H as [|x l Hx _ IH]; cbn [positional length]; [cbn; lia|].
  unfold byte_ok in Hx. rewrite Nat2Z.inj_succ, Z.pow_succ_r by lia. nia.
Qed.

Lemma read_value : forall k s x, 1 <= k -> value_text k s x ->
  exists l, parse_bytes s k = Ret (Some l) /\ positional 256 l = x mod 256 ^ k.
Proof.
  intros k s x Hk H.
  assert (K : forall l, parse_bytes s k = Ret (Some l) -> x = positional 256 l -> exists l, parse_bytes s k = Ret (Some l) /\ positional 256 l = x mod 256 ^ k).
  { intros l Hl ->. exists l. split; auto. destruct (parse_bytes_len s k l ltac:(lia) Hl) as [E1 E2]. apply is_byte_bytes in E2.
    pose proof (positional_bytes l E2) as HB. unfold zlen in E1. rewrite E1 in HB. rewrite Z.mod_small; auto. }
  destruct H.
  - destruct H0 as [base [body [H2 [-> H3]]]]. destruct (numeral_stored base body n k H2 H3 ltac:(lia) H) as [l [E1 [_ [_ E2]]]]. eauto.
  - destruct (wide_hex body ds k H H0 H1 H2 H3) as [l [E1 [_ [_ E2]]]]. eauto.
  - destruct (wide_bin body ds k H H0 H1 H2 H3) as [l [E1 [_ [_ E2]]]]. eauto.
  - subst k. eapply K; [apply mac_full; eauto|auto].
  - subst k. eapply K; [apply mac_split_text; eauto|auto].
  - subst k. eapply K; [apply quad_parsed; auto|auto].
  - subst k. eapply K; [apply ipv6_full; eauto|]. symmetry. apply positional_groups.
  - subst k. eapply K; [apply (ipv6_split_text tp tq p q); auto|].
    rewrite <- positional_groups, !flat_map_app, groups_zeros. do 4 f_equal. lia.
Qed.

(** *** The table of formats against the templates *)
Definition parser_for (n fld : string) : field_parser :=
  (if String.eqb n "coap" && String.eqb fld "code" then FP_coap_code
   else if String.eqb n "opc-ua" && (String.eqb fld "pub-id" || String.eqb fld "wg-id") then FP_opc16
   else if String.eqb n "oam-ccm" && String.eqb fld "meg_id" then FP_field_hex
   else FP_default)%string.

Definition keywords : list string := ["help"; "ign"; "ignore"]%string.
Definition no_value (p : field_parser) (v : string) (k : Z) : bool := match field_text p v k with Ret (Some _) => false | _ => true end.

Definition field_fits (n : string) (t : hdr) (m : format) (fld : string) : bool :=
  String.eqb fld "-" ||
  (negb (existsb (String.eqb fld) keywords) &&
   match place m fld, find_field t fld with
   | Some (off, w), Some f =>
       (f_width f =? w) && (1 <=? w) && fp_eqb (f_parser f) (parser_for n fld) && negb (is_some (f_val f)) &&
       (if String.eqb fld "meg_id" then w =? 384 else true) &&
       (match parser_for n fld with FP_coap_code => w =? 8 | FP_opc16 => w =? 16 | _ => true end) &&
       forallb (fun v => no_value (f_parser f) v ((w + 7) / 8)) keywords
   | _, _ => false
   end).

Definition steady (k : filler) : bool := match k with FL_igmp | FL_mld | FL_sv | FL_coap_opt => false | _ => true end.

Definition format_fits (p : string * format) : bool :=
  match find_tmpl (fst p) with
  | Some t =>
      String.eqb (h_name t) (fst p) &&
      match h_parser t with HP_fields => true | _ => false end && (8 * h_size t =? bits (snd p)) && (h_size t <=? 200) && steady (h_fill t) && negb (existsb (String.eqb (fst p)) ["igmp"; "mld"; "sv"; "profinet-rtc"; "coap-opt"]%string) &&
      forallb (field_fits (fst p) t (snd p)) (map fst (snd p)) &&
      forallb (fun w => negb (existsb (String.eqb w) keywords) && negb (existsb (fun f => String.eqb (f_name f) w) (h_fields t))) ("data"%string :: map fst formats)
  | None => false
  end.

Lemma formats_fit : forallb format_fits formats = true.
Proof. vm_compute. reflexivity. Qed.

Lemma formats_nodup : nodupb (map fst formats) = true.
Proof. vm_compute. reflexivity. Qed.

Lemma mod_mod_pow : forall x a b, 0 <= a <= b -> (x mod 2 ^ b) mod 2 ^ a = x mod 2 ^ a.
Proof. intros x a b H. symmetry. apply Znumtheory.Zmod_div_mod; [apply Z.pow_pos_nonneg; lia|apply Z.pow_pos_nonneg; lia|]. exists (2 ^ (b - a)). rewrite <- Z.pow_add_r by lia. f_equal. lia. Qed.

Lemma parser_plain : forall n fld, ~ In (n, fld) special -> parser_for n fld = FP_default.
Proof.
  intros n fld H. unfold parser_for.
  destruct (String.eqb n "coap" && _) eqn:E1.
  { apply andb_true_iff in E1. destruct E1 as [A B]. apply String.eqb_eq in A, B. subst. exfalso. apply H. cbn. tauto. }
  destruct (String.eqb n "opc-ua" && _) eqn:E2.
  { apply andb_true_iff in E2. destruct E2 as [A B]. apply orb_true_iff in B. apply String.eqb_eq in A. exfalso. apply H. destruct B as [B|B]; apply String.eqb_eq in B; subst; cbn; tauto. }
  destruct (String.eqb n "oam-ccm" && _) eqn:E3; [|auto].
  apply andb_true_iff in E3. destruct E3 as [A B]. apply String.eqb_eq in A, B. subst. exfalso. apply H. cbn. tauto.
Qed.

Lemma left_aligned : forall d s, hexdump d s -> d <> [] -> Z.of_nat (length d) <= 48 ->
  parse_field_hex s 48 = Ret (Some (d ++ zeros (48 - length d))).
Proof.
  intros d s Hd Hn Hl. unfold parse_field_hex. rewrite (parse_var_hex_dump d s Hd Hn). cbn [bind].
  destruct (Z.ltb_spec 48 (zlen d)); [unfold zlen in *; lia|].
  replace (memset_in (balloc 48) 0 0 4) with (Ret (repeat 0 48)) by (vm_compute; reflexivity). cbn [bind]. unfold memcpy_start.
  replace (zlen (repeat 0 48)) with 48 by reflexivity. destruct (Z.ltb_spec 48 (zlen d)); [lia|]. cbn [bind]. do 3 f_equal.
  unfold zeros. replace 48%nat with (length d + (48 - length d))%nat at 1 by (unfold zlen in *; lia).
  rewrite repeat_app, skipn_app, skipn_all2 by (rewrite repeat_length; lia). rewrite repeat_length, Nat.sub_diag. reflexivity.
Qed.

Lemma means_read : forall n t m fld off w f s x, field_fits n t m fld = true -> fld <> "-"%string -> place m fld = Some (off, w) -> find_field t fld = Some f ->
  means n fld w s x ->
  f_width f = w /\ 1 <= w /\ f_val f = None /\ existsb (String.eqb fld) keywords = false /\ existsb (String.eqb s) keywords = false /\
  exists l, field_text (f_parser f) s (Z.max 1 ((f_width f + 7) / 8)) = Ret (Some l) /\ positional 256 l mod 2 ^ w = x mod 2 ^ w.
Proof.
  intros n t m fld off w f s x HF Hne Hp Hf HM. unfold field_fits in HF. apply String.eqb_neq in Hne. rewrite Hne in HF. cbn [orb] in HF.
  rewrite Hp, Hf, !andb_true_iff in HF. destruct HF as [F1 [[[[[[F2 F3] F4] F5] F6] F7] F8]].
  apply Z.eqb_eq in F2. apply Z.leb_le in F3. apply fp_eqb_spec in F4. apply negb_true_iff in F1, F5.
  split; [auto|split; [auto|split; [destruct (f_val f); [discriminate|auto]|split; [auto|]]]].
  replace (Z.max 1 ((f_width f + 7) / 8)) with ((w + 7) / 8) by lia.
  assert (K : exists l, field_text (f_parser f) s ((w + 7) / 8) = Ret (Some l) /\ positional 256 l mod 2 ^ w = x mod 2 ^ w).
  { destruct HM.
    - rewrite F4, (parser_plain _ _ H). cbn [field_text]. destruct (read_value ((w + 7) / 8) s x ltac:(lia) H0) as [l [E1 E2]]. exists l. split; auto.
      rewrite E2. change 256 with (2 ^ 8). rewrite <- Z.pow_mul_r by lia. apply mod_mod_pow. lia.
    - apply pair_inj in H. destruct H as [-> ->]. rewrite F4. exists [32 * c + dd]. split; [change (parser_for "coap" "code") with FP_coap_code; cbn [field_text]; rewrite coap_code_all by lia; auto|]. f_equal. cbn [positional length]. rewrite Z.pow_0_r. lia.
    - assert (E : parser_for n fld = FP_opc16) by (destruct H as [H|[H|[]]]; apply pair_inj in H; destruct H as [<- <-]; reflexivity).
      rewrite F4, E. cbn [field_text]. rewrite (opc_number s x) by auto. eexists. split; [reflexivity|]. f_equal. cbn [positional length]. change (Z.of_nat 1) with 1. change (Z.of_nat 0) with 0. rewrite Z.pow_0_r, Z.pow_1_r. lia.
    - apply pair_inj in H. destruct H as [-> ->]. cbn [String.eqb Ascii.eqb Bool.eqb] in F6. apply Z.eqb_eq in F6. rewrite F6. rewrite F4.
      change (parser_for "oam-ccm" "meg_id") with FP_field_hex. cbn [field_text]. change ((384 + 7) / 8) with 48. rewrite (left_aligned d s) by auto. eexists. split; [reflexivity|auto]. }
  split; [|auto]. destruct K as [l [K _]]. rewrite forallb_forall in F8. destruct (existsb (String.eqb s) keywords) eqn:Ek; auto.
  apply existsb_exists in Ek. destruct Ek as [v [Hv Es]]. apply String.eqb_eq in Es. subst v. specialize (F8 s Hv). unfold no_value in F8. rewrite K in F8. discriminate.
Qed.

(** *** One header *)
Definition hdr_for (p : string * list (string * string)) : hdr :=
  match find_tmpl (fst p) with Some t => fold_left assign (snd p) t | None => HDR_PAYLOAD end.

Lemma find_other : forall n m g h, (forall x, f_name (g x) = f_name x) -> n <> m -> find_field (fmod n g h) m = find_field h m.
Proof.
  intros n m g h Hg Hne. unfold find_field, fmod. cbn [set_fields h_fields]. induction (h_fields h) as [|x r IH]; auto. cbn [mod_first].
  destruct (String.eqb_spec n (f_name x)) as [E|E]; cbn [find].
  - rewrite Hg. destruct (String.eqb_spec m (f_name x)); [congruence|auto].
  - destruct (String.eqb m (f_name x)); auto.
Qed.

Lemma assigned_find : forall asg h fld f, find_field h fld = Some f ->
  exists g, find_field (fold_left assign asg h) fld = Some g /\ f_val g = match last_given asg fld with Some v => text_val f v | None => f_val f end.
Proof.
  induction asg as [|[n v] asg IH]; intros h fld f Hf; [exists f; auto|]. cbn [fold_left last_given].
  destruct (String.eqb_spec n fld) as [E|E].
  - subst n. assert (H1 : find_field (assign h (fld, v)) fld = Some (assign1 v f)) by (apply find_field_fmod; auto).
    destruct (IH _ _ _ H1) as [g [G1 G2]]. exists g. split; auto. rewrite G2. destruct (last_given asg fld); reflexivity.
  - assert (H1 : find_field (assign h (n, v)) fld = Some f) by (unfold assign; rewrite find_other; auto).
    destruct (IH _ _ _ H1) as [g [G1 G2]]. exists g. split; auto. rewrite G2. destruct (last_given asg fld); reflexivity.
Qed.

Record fits (p : string * list (string * string)) (m : format) (t : hdr) : Prop := MkFits {
  ft_named : In (fst p, m) formats;
  ft_tmpl : In t hdr_tmpls;
  ft_name : h_name t = fst p;
  ft_parser : h_parser t = HP_fields;
  ft_find : find_tmpl (fst p) = Some t;
  ft_size : 8 * h_size t = bits m;
  ft_small : h_size t <= 200;
  ft_steady : steady (h_fill t) = true;
  ft_plain : existsb (String.eqb (fst p)) ["igmp"; "mld"; "sv"; "profinet-rtc"; "coap-opt"]%string = false;
  ft_fields : forall fld, In fld (map fst m) -> field_fits (fst p) t m fld = true;
  ft_words : forall w, In w ("data"%string :: map fst formats) -> existsb (String.eqb w) keywords = false /\ forall f, In f (h_fields t) -> f_name f <> w }.

Lemma written_fits : forall p, well_written p -> exists m t, fits p m t /\
  forall fld s, In (fld, s) (snd p) -> fld <> "-"%string /\ exists off w x, place m fld = Some (off, w) /\ means (fst p) fld w s x.
Proof.
  intros p [m [Hn Ha]]. pose proof formats_fit as HF. rewrite forallb_forall in HF. specialize (HF _ Hn). unfold format_fits in HF. cbn [fst snd] in HF.
  destruct (find_tmpl (fst p)) as [t|] eqn:Et; [|discriminate]. rewrite !andb_true_iff in HF. destruct HF as [[[[[[[H1 H2] H3] H4] H5] H6] H7] H8].
  exists m, t. split; [|exact Ha]. pose proof (find_tmpl_in _ _ Et) as [Ht Hname].
  constructor; auto.
  - destruct (h_parser t); auto; discriminate.
  - lia.
  - lia.
  - apply negb_true_iff in H6. auto.
  - rewrite forallb_forall in H7. auto.
  - rewrite forallb_forall in H8. intros w Hw. specialize (H8 w Hw). cbv beta in H8. rewrite andb_true_iff in H8. destruct H8 as [A B]. apply negb_true_iff in A, B. split; auto.
    intros f Hf E. assert (existsb (fun f => String.eqb (f_name f) w) (h_fields t) = true) by (apply existsb_exists; exists f; split; auto; apply String.eqb_eq; auto). congruence.
Qed.

Lemma keyword_facts : forall w, existsb (String.eqb w) keywords = false -> w <> "help"%string /\ ~ ignore_word w.
Proof.
  intros w H. unfold keywords in H. cbn [existsb] in H. rewrite !orb_false_iff in H. destruct H as [A [B [C _]]]. apply String.eqb_neq in A, B, C. split; auto. intros [E|E]; auto.
Qed.

Lemma place_listed : forall m p fld off w, place_from p m fld = Some (off, w) -> In fld (map fst m).
Proof. intros m p fld off w H. apply place_in in H. destruct H as [q H]. apply (in_map fst) in H. auto. Qed.

Lemma fits_field : forall p m t fld off w, fits p m t -> fld <> "-"%string -> place m fld = Some (off, w) -> exists f, find_field t fld = Some f.
Proof.
  intros p m t fld off w H Hne Hp. pose proof (ft_fields _ _ _ H fld (place_listed _ _ _ _ _ Hp)) as HF. unfold field_fits in HF.
  apply String.eqb_neq in Hne. rewrite Hne, Hp in HF. cbn [orb] in HF. rewrite andb_true_iff in HF. destruct HF as [_ HF].
  destruct (find_field t fld) as [f|]; [eauto|discriminate].
Qed.

Lemma written_value : forall p m t, fits p m t ->
  (forall fld s, In (fld, s) (snd p) -> fld <> "-"%string /\ exists off w x, place m fld = Some (off, w) /\ means (fst p) fld w s x) ->
  (forall n v, In (n, v) (snd p) -> assignable t n v /\ is_ign v = false) /\
  forall fld off w, fld <> "-"%string -> place m fld = Some (off, w) ->
    match last_given (snd p) fld with
    | Some s => exists v, value_of (hdr_for p) fld = Some v /\ forall x, means (fst p) fld w s x -> positional 256 v mod 2 ^ w = x mod 2 ^ w
    | None => value_of (hdr_for p) fld = None
    end.
Proof.
  intros p m t HT HA. split.
  - intros n v Hin. destruct (HA n v Hin) as [Hne [off [w [x [Hp HM]]]]]. destruct (fits_field _ _ _ _ _ _ HT Hne Hp) as [f Hf].
    destruct (means_read _ _ _ _ _ _ _ _ _ (ft_fields _ _ _ HT n (place_listed _ _ _ _ _ Hp)) Hne Hp Hf HM) as [H1 [H2 [H3 [H4 [H5 [l [H6 H7]]]]]]].
    apply keyword_facts in H4, H5. split; [|apply is_ign_false; apply H5]. split; [apply H4|split; [apply H4|split; [apply H5|]]].
    unfold find_field in Hf. destruct (POrigin.find_first _ _ _ _ Hf) as [j [K1 [K2 K3]]]. apply String.eqb_eq in K2. exists j, f. split; auto. split; auto. split; [|right; eauto].
    intros i g Hi Hg E. specialize (K3 i g Hi Hg). cbv beta in K3. rewrite E, String.eqb_refl in K3. discriminate.
  - intros fld off w Hne Hp. destruct (fits_field _ _ _ _ _ _ HT Hne Hp) as [f Hf]. unfold hdr_for, value_of. rewrite (ft_find _ _ _ HT).
    destruct (assigned_find (snd p) t fld f Hf) as [g [G1 G2]]. rewrite G1, G2.
    pose proof (ft_fields _ _ _ HT fld (place_listed _ _ _ _ _ Hp)) as HF.
    destruct (last_given (snd p) fld) as [s|] eqn:Eg.
    + destruct (HA fld s (last_given_in _ _ _ Eg)) as [_ [off' [w' [x [Hp' HM]]]]]. assert (w' = w) by congruence. subst w'.
      destruct (means_read _ _ _ _ _ _ _ _ _ HF Hne Hp Hf HM) as [H1 [H2 [H3 [H4 [H5 [l [H6 H7]]]]]]]. exists l. apply keyword_facts in H5. split.
      * unfold text_val. rewrite is_ign_false by apply H5. rewrite bytes_of_width by lia. rewrite H6. auto.
      * intros y HY. destruct (means_read _ _ _ _ _ _ _ _ _ HF Hne Hp Hf HY) as [_ [_ [_ [_ [_ [l' [J1 J2]]]]]]]. rewrite H6 in J1. apply ret_inj in J1. apply some_inj in J1. subst l'. auto.
    + unfold field_fits in HF. apply String.eqb_neq in Hne. rewrite Hne in HF. cbn [orb] in HF. rewrite Hp, Hf, !andb_true_iff in HF. destruct HF as [_ [[[[_ F5] _] _] _]].
      apply negb_true_iff in F5. destruct (f_val f); [discriminate|auto].
Qed.

Lemma hdr_for_like : forall p m t, fits p m t -> h_name (hdr_for p) = fst p /\ h_size (hdr_for p) = h_size t /\ h_fill (hdr_for p) = h_fill t.
Proof.
  intros p m t H. unfold hdr_for. rewrite (ft_find _ _ _ H). destruct (fold_like (snd p) t t (like_refl t)) as [E _]. rewrite E. cbn [set_fields h_name h_size h_fill].
  rewrite (ft_name _ _ _ H). auto.
Qed.

(** *** All headers *)
Definition payload_hdr (ps : list piece) : list hdr := match ps with [] => [] | _ => [raw (payload ps)] end.
Definition stack_for (hs : headers) (ps : list piece) : list hdr := map hdr_for hs ++ payload_hdr ps.

Lemma payload_loop : forall ps fuel i stk, Forall piece_ok ps -> (length (payload_text ps) < fuel)%nat ->
  zlen stk + Z.of_nat (length (payload_text ps)) <= 100 -> Z.of_nat (length (payload ps)) <= size_limit ->
  argc_frame_loop fuel (payload_text ps) i (MkFrame stk 0 false) = Ret (Some (i + length (payload_text ps), MkFrame (stk ++ payload_hdr ps) 0 false))%nat.
Proof.
  intros ps fuel i stk Hok Hf Hs Hl. destruct fuel as [|fuel]; [lia|]. destruct ps as [|p ps].
  { cbn [payload_text payload_hdr length argc_frame_loop]. rewrite app_nil_r, Nat.add_0_r. reflexivity. }
  unfold payload_text, payload_hdr in *. cbn [length] in *. cbn [argc_frame_loop].
  change (String.eqb "data" "help") with false. cbv iota. replace (find_tmpl "data") with (Some HDR_PAYLOAD) by (vm_compute; reflexivity).
  cbn [fr_stack fr_padding fr_has_mask]. unfold FRAME_STACK_MAX. destruct (Z.leb_spec 100 (zlen stk)); [lia|].
  unfold parse_hdr. replace (h_parser HDR_PAYLOAD) with HP_payload by (vm_compute; reflexivity). unfold payload_parser.
  pose proof (pieces_parsed (p :: ps) [] ltac:(discriminate) Hok (or_introl eq_refl)) as HP. rewrite app_nil_r in HP. rewrite HP. fold (payload (p :: ps)).
  set (ws := flat_map piece_words (p :: ps)) in *. assert (Hw : (0 < length ws)%nat). { unfold ws. cbn [flat_map]. rewrite app_length. destruct p; cbn [piece_words length]; lia. }
  clearbody ws. cbn [bind]. destruct (Z.ltb_spec (Z.of_nat (length ws)) 0); [lia|]. destruct (Z.eqb_spec (Z.of_nat (length ws)) 0); [lia|].
  unfold zlen at 1. destruct (Z.ltb_spec size_limit (Z.of_nat (length (payload (p :: ps))))); [lia|].
  cbn [bind]. rewrite Nat2Z.id, skipn_all. destruct fuel as [|fuel]; [lia|]. cbn [argc_frame_loop]. replace (i + 1 + length ws)%nat with (i + S (length ws))%nat by lia. reflexivity.
Qed.

Lemma text_head : forall hs ps w r, Forall well_written hs -> text hs ps = w :: r -> In w ("data"%string :: map fst formats).
Proof.
  intros [|p hs] ps w r Hw E.
  - unfold text in E. cbn [flat_map app] in E. destruct ps as [|q ps]; [discriminate|]. cbn [payload_text] in E. injection E as E _. left. auto.
  - apply Forall_inv in Hw. destruct Hw as [m [Hn _]]. unfold text in E. cbn [flat_map header_text app] in E. injection E as E _. right. subst w. apply (in_map fst) in Hn. auto.
Qed.

Lemma text_loop : forall hs ps fuel i stk, Forall well_written hs -> Forall piece_ok ps -> (length (text hs ps) < fuel)%nat ->
  zlen stk + Z.of_nat (length (text hs ps)) <= 100 -> Z.of_nat (length (payload ps)) <= size_limit ->
  argc_frame_loop fuel (text hs ps) i (MkFrame stk 0 false) = Ret (Some (i + length (text hs ps), MkFrame (stk ++ stack_for hs ps) 0 false))%nat.
Proof.
  induction hs as [|p hs IH]; intros ps fuel i stk Hw Hok Hf Hs Hl.
  { unfold text, stack_for in *. cbn [flat_map map app] in *. apply payload_loop; auto. }
  pose proof (Forall_inv Hw) as Hp. pose proof (Forall_inv_tail Hw) as Hws.
  destruct (written_fits p Hp) as [m [t [HT HA]]]. destruct (written_value p m t HT HA) as [HV _].
  assert (E : text (p :: hs) ps = fst p :: words_of (snd p) ++ text hs ps) by (unfold text; cbn [flat_map header_text]; rewrite <- app_assoc; reflexivity).
  rewrite E in *. cbn [length] in *. rewrite app_length, words_length in *. destruct fuel as [|fuel]; [lia|]. cbn [argc_frame_loop].
  assert (Eh : String.eqb (fst p) "help" = false) by (rewrite <- (ft_name _ _ _ HT); apply tmpl_help; apply HT).
  rewrite Eh, (ft_find _ _ _ HT). cbn [fr_stack fr_padding fr_has_mask]. unfold FRAME_STACK_MAX. destruct (Z.leb_spec 100 (zlen stk)); [lia|].
  unfold parse_hdr. rewrite (ft_parser _ _ _ HT). unfold hdr_parse_fields.
  destruct (hpf_assign (snd p) t (text hs ps) (S (length (words_of (snd p) ++ text hs ps))) t 0 false (tmpl_widths t (ft_tmpl _ _ _ HT)) (like_refl t)) as [fuel' [Hf' EH]]; [intros; apply HV; auto|lia|].
  rewrite EH. rewrite (hpf_ends t); auto; [|apply fold_like; apply like_refl|].
  2:{ destruct (text hs ps) as [|w r] eqn:Et; [exact I|]. destruct (ft_words _ _ _ HT w (text_head _ _ _ _ Hws Et)) as [A B]. apply keyword_facts in A. split; [apply A|split; [apply A|auto]]. }
  cbn [bind orb]. assert (Em : existsb (fun q => is_ign (snd q)) (snd p) = false).
  { destruct (existsb _ _) eqn:Ex; auto. apply existsb_exists in Ex. destruct Ex as [[n v] [H1 H2]]. cbn [snd] in H2. destruct (HV n v H1). congruence. }
  rewrite Em. rewrite <- words_length. rewrite skipn_app, skipn_all, Nat.sub_diag. cbn [app skipn].
  rewrite IH; auto; [|lia|rewrite zlen_app, zlen_cons, zlen_nil; lia].
  rewrite <- app_assoc, words_length. unfold stack_for. cbn [map app]. unfold hdr_for at 2. rewrite (ft_find _ _ _ HT).
  match goal with |- Ret (Some (?a, _)) = Ret (Some (?b, _)) => replace b with a by lia end. reflexivity.
Qed.

Lemma text_accepted : forall hs ps, Forall well_written hs -> Forall piece_ok ps -> Z.of_nat (length (text hs ps)) <= 100 -> Z.of_nat (length (payload ps)) <= size_limit ->
  argc_frame (text hs ps) = Ret (Some (length (text hs ps), MkFrame (stack_for hs ps) 0 false)).
Proof.
  intros hs ps Hw Hok Hl Hp. unfold argc_frame, FRAME_STACK_MAX, zlen. destruct (Z.ltb_spec 100 (Z.of_nat (length (text hs ps)))); [lia|].
  unfold empty_frame. rewrite text_loop; auto.
Qed.

(** *** Sizes *)
Lemma find_format : forall n m, In (n, m) formats -> find (fun p => String.eqb (fst p) n) formats = Some (n, m).
Proof.
  intros n m H. pose proof (nodupb_spec _ formats_nodup) as HN. revert H HN. generalize formats. intros l. induction l as [|[a x] r IH]; intros H HN; [destruct H|].
  cbn [map fst] in HN. apply NoDup_cons_iff in HN. destruct HN as [H1 H2]. cbn [find fst]. destruct H as [H|H].
  - apply pair_inj in H. destruct H as [-> ->]. rewrite String.eqb_refl. auto.
  - destruct (String.eqb_spec a n) as [E|_]; [|auto]. subst a. exfalso. apply H1. apply (in_map fst) in H. auto.
Qed.

Lemma header_bits_named : forall n m, In (n, m) formats -> header_bits n = bits m.
Proof. intros n m H. unfold header_bits. rewrite (find_format n m H). reflexivity. Qed.

Lemma hdr_for_bits : forall p, well_written p -> 8 * h_size (hdr_for p) = header_bits (fst p) /\ h_size (hdr_for p) <= 200.
Proof.
  intros p Hp. destruct (written_fits p Hp) as [m [t [HT _]]]. destruct (hdr_for_like _ _ _ HT) as [_ [E _]]. rewrite E.
  rewrite (header_bits_named _ _ (ft_named _ _ _ HT)). split; apply HT.
Qed.

Lemma stack_bits_of : forall hs, Forall well_written hs -> 8 * sum_sizes (map hdr_for hs) = bits_of hs.
Proof.
  unfold sum_sizes, bits_of. induction hs as [|p hs IH]; intros H; [reflexivity|]. cbn [map fold_right]. specialize (IH (Forall_inv_tail H)).
  destruct (hdr_for_bits p (Forall_inv H)). lia.
Qed.

Lemma sum_sizes_app : forall a b, sum_sizes (a ++ b) = sum_sizes a + sum_sizes b.
Proof. unfold sum_sizes. induction a as [|h a IH]; intros b; cbn [app map fold_right]; [lia|]. rewrite IH. lia. Qed.

Lemma payload_size : forall ps, sum_sizes (payload_hdr ps) = Z.of_nat (length (payload ps)).
Proof. destruct ps as [|p ps]; [reflexivity|]. cbn [payload_hdr]. unfold sum_sizes. cbn [map fold_right]. change (h_size (raw (payload (p :: ps)))) with (zlen (payload (p :: ps))). unfold zlen. lia. Qed.

Lemma hdr_for_regular : forall p, well_written p -> regular (hdr_for p) = true /\ size_after (hdr_for p) = h_size (hdr_for p) /\ h_name (hdr_for p) <> "mld"%string.
Proof.
  intros p Hp. destruct (written_fits p Hp) as [m [t [HT _]]]. destruct (hdr_for_like _ _ _ HT) as [E1 [E2 E3]].
  pose proof (ft_steady _ _ _ HT) as HS. pose proof (ft_plain _ _ _ HT) as HN. cbn [existsb] in HN. rewrite !orb_false_iff in HN. destruct HN as [N1 [N2 [N3 [N4 [N5 _]]]]].
  split; [unfold regular; rewrite E3; destruct (h_fill t); auto; discriminate|]. split.
  - unfold size_after. rewrite E1, N1, N2, N3, N5. auto.
  - rewrite E1. apply String.eqb_neq. auto.
Qed.

Lemma text_long : forall hs ps, (length hs + length (payload_hdr ps) <= length (text hs ps))%nat.
Proof.
  intros hs ps. unfold text. rewrite app_length. assert (length hs <= length (flat_map header_text hs))%nat.
  { induction hs as [|p hs IH]; [auto|]. cbn [flat_map]. rewrite app_length. cbn [header_text length]. lia. }
  destruct ps; cbn [payload_hdr payload_text length]; lia.
Qed.

Definition bulk_of (stk : list hdr) : Z := fold_right (fun h n => h_size h + 4 + n) 0 stk.

Lemma bulk_app : forall a b, bulk_of (a ++ b) = bulk_of a + bulk_of b.
Proof. unfold bulk_of. induction a as [|h a IH]; intros b; cbn [app fold_right]; [lia|]. rewrite IH. lia. Qed.

Lemma text_modest : forall hs ps, Forall well_written hs -> Z.of_nat (length (text hs ps)) <= 100 -> Z.of_nat (length (payload ps)) <= 134000000 ->
  modest (stack_for hs ps).
Proof.
  intros hs ps Hw Hl Hp. unfold modest, stack_for. fold (bulk_of (map hdr_for hs ++ payload_hdr ps)). rewrite bulk_app.
  assert (H1 : bulk_of (map hdr_for hs) <= 204 * Z.of_nat (length hs)).
  { clear Hl. induction Hw as [|p hs Hp1 Hw IH]; [cbn; lia|]. cbn [map bulk_of fold_right length]. fold (bulk_of (map hdr_for hs)). destruct (hdr_for_bits p Hp1). lia. }
  assert (H2 : bulk_of (payload_hdr ps) <= Z.of_nat (length (payload ps)) + 4).
  { destruct ps as [|q ps]; [cbn; lia|]. cbn [payload_hdr bulk_of fold_right]. change (h_size (raw (payload (q :: ps)))) with (zlen (payload (q :: ps))). unfold zlen. lia. }
  pose proof (text_long hs ps). lia.
Qed.

Lemma text_regular : forall hs ps, Forall well_written hs ->
  Forall (fun h => regular h = true) (stack_for hs ps) /\ map size_after (stack_for hs ps) = map h_size (stack_for hs ps) /\ Forall (fun h => h_name h <> "mld"%string) (stack_for hs ps).
Proof.
  intros hs ps Hw.
  assert (HP : Forall (fun h => regular h = true /\ size_after h = h_size h /\ h_name h <> "mld"%string) (stack_for hs ps)).
  { apply Forall_app. split.
    - apply Forall_forall. intros h Hh. apply in_map_iff in Hh. destruct Hh as [p [<- Hp]]. rewrite Forall_forall in Hw. apply hdr_for_regular. auto.
    - destruct ps as [|q ps]; [constructor|]. constructor; [|constructor]. split; [reflexivity|split; [reflexivity|discriminate]]. }
  split; [eapply Forall_impl; [|exact HP]; intros h H; apply H|split; [|eapply Forall_impl; [|exact HP]; intros h H; apply H]].
  apply map_ext_in. intros h Hh. rewrite Forall_forall in HP. apply HP. auto.
Qed.

Lemma text_serialised : forall hs ps, Forall well_written hs -> Forall piece_ok ps -> Z.of_nat (length (text hs ps)) <= 100 -> Z.of_nat (length (payload ps)) <= 134000000 ->
  exists f' b, serialised (text hs ps) (MkFrame (stack_for hs ps) 0 false) f' b.
Proof.
  intros hs ps Hw Hok Hl Hp. pose proof (text_accepted hs ps Hw Hok Hl ltac:(unfold size_limit; lia)) as HA.
  destruct (text_regular hs ps Hw) as [HR [_ HM]].
  destruct (serialise_exact _ _ _ HA HR (text_modest hs ps Hw Hl Hp)) as [[[k [h [H1 [H2 _]]]] _]|[_ [f' [b H]]]].
  - exfalso. cbn [fr_stack] in H1. rewrite Forall_forall in HM. apply (HM h); auto. eapply nth_error_In; eauto.
  - exists f', b. split; [eauto|split; auto].
Qed.

(** *** Places *)
Lemma whole_sizes : forall hs ps f' b, Forall well_written hs -> serialised (text hs ps) (MkFrame (stack_for hs ps) 0 false) f' b ->
  map h_size (fr_stack f') = map h_size (stack_for hs ps).
Proof. intros hs ps f' b Hw HS. destruct (sizes_after _ _ _ _ HS) as [_ E]. rewrite E. apply text_regular. auto. Qed.

Lemma start_same : forall a b k, map h_size a = map h_size b -> start_of a k = start_of b k /\ sum_sizes a = sum_sizes b.
Proof. intros a b k H. unfold start_of, sum_sizes. rewrite <- !firstn_map. rewrite H. auto. Qed.

Lemma start_header : forall hs ps k, Forall well_written hs -> (k <= length hs)%nat -> 8 * start_of (stack_for hs ps) k = bits_of (firstn k hs).
Proof.
  intros hs ps k Hw Hk. unfold start_of, stack_for. rewrite firstn_app, map_length. replace (k - length hs)%nat with 0%nat by lia. cbn [firstn]. rewrite app_nil_r, firstn_map.
  apply stack_bits_of. rewrite Forall_forall in *. intros p Hp. apply Hw. rewrite <- (firstn_skipn k hs). apply in_or_app. auto.
Qed.

Lemma positional_inj : forall a b, bytes_ok a -> bytes_ok b -> length a = length b -> positional 256 a = positional 256 b -> a = b.
Proof.
  intros a b Ha. revert b. induction Ha as [|x a Hx Ha IH]; intros b Hb Hl E; destruct b as [|y b]; try discriminate; [auto|].
  cbn [length] in Hl. injection Hl as Hl. cbn [positional] in E. rewrite Hl in E. pose proof (positional_bytes a Ha) as B1. pose proof (positional_bytes b (Forall_inv_tail Hb)) as B2. rewrite Hl in B1.
  set (M := 256 ^ Z.of_nat (length b)) in *. clearbody M.
  assert (x = y) by nia. subst y. f_equal. apply IH; auto; [eapply Forall_inv_tail; eauto|lia].
Qed.

Lemma number_slice : forall b p n, bytes_ok b -> (p + n <= length b)%nat -> number_at b (8 * Z.of_nat p) (8 * n) = positional 256 (slice b p n).
Proof.
  intros b p n Hb Hl. assert (L : length (slice b p n) = n) by (unfold slice; rewrite firstn_length, skipn_length; lia).
  rewrite (number_at_ext _ b (slice b p n) _ 0).
  - rewrite number_at_val; [|apply slice_ok; auto|lia|unfold zlen; lia]. unfold zlen. rewrite L. replace (8 * Z.of_nat n - 0 - Z.of_nat (8 * n)) with 0 by lia.
    rewrite Z.pow_0_r, Z.div_1_r, positional_be_val. apply Z.mod_small. rewrite <- positional_be_val. pose proof (positional_bytes (slice b p n) (slice_ok _ _ _ Hb)) as B. rewrite L in B.
    replace (2 ^ Z.of_nat (8 * n)) with (256 ^ Z.of_nat n); [auto|]. rewrite Nat2Z.inj_mul, Z.pow_mul_r by lia. reflexivity.
  - intros k Hk. rewrite bit_at_slice by lia. reflexivity.
Qed.

Lemma text_bytes_ok : forall s, bytes_ok (text_bytes s).
Proof. intros s. unfold text_bytes. apply Forall_forall. intros x Hx. apply in_map_iff in Hx. destruct Hx as [c [<- _]]. unfold byte_ok. pose proof (nat_ascii_bounded c). lia. Qed.

Lemma pieces_bytes : forall ps, Forall piece_ok ps -> bytes_ok (payload ps).
Proof.
  intros ps H. unfold payload. induction H as [|p ps Hp H IH]; [constructor|]. cbn [map concat]. apply bytes_ok_app. split; [|exact IH].
  destruct p as [t d|t|t|ct vt c v|pt ct c]; cbn [piece_data piece_ok] in *.
  - eapply hexdump_bytes. apply Hp.
  - apply text_bytes_ok.
  - apply bytes_ok_app. split; [apply text_bytes_ok|]. constructor; [unfold byte_ok; lia|constructor].
  - apply Forall_forall. intros x Hx. apply repeat_spec in Hx. subst x. unfold byte_ok. lia.
  - apply Forall_forall. intros x Hx. apply in_map_iff in Hx. destruct Hx as [i [<- _]]. unfold byte_ok. destruct pt; cbn [pattern_byte]; lia.
Qed.

Lemma payload_placed : forall hs ps f' b, Forall well_written hs -> Forall piece_ok ps -> serialised (text hs ps) (MkFrame (stack_for hs ps) 0 false) f' b ->
  slice b (Z.to_nat (bits_of hs / 8)) (length (payload ps)) = payload ps.
Proof.
  intros hs ps f' b Hw Hok HS. pose proof (whole_sizes _ _ _ _ Hw HS) as HZ. destruct (start_same _ _ (length hs) HZ) as [Z1 Z2].
  pose proof (start_header hs ps (length hs) Hw (le_n _)) as HB. rewrite firstn_all in HB.
  destruct HS as [HA [HR HF]]. pose proof (emitted_length _ _ _ HF) as HL. pose proof (emitted_bytes _ _ _ HF) as HO. apply is_byte_bytes in HO.
  assert (HT : sum_sizes (stack_for hs ps) = start_of (stack_for hs ps) (length hs) + Z.of_nat (length (payload ps))).
  { unfold start_of, stack_for. rewrite firstn_app, map_length, Nat.sub_diag. cbn [firstn]. rewrite app_nil_r. rewrite firstn_all2 by (rewrite map_length; lia). rewrite sum_sizes_app, payload_size. auto. }
  assert (H0 : 0 <= start_of (stack_for hs ps) (length hs)).
  { rewrite <- Z1. destruct HA as [n HA]. pose proof (accepted_well_formed _ _ _ _ _ HA HR HF) as WF. unfold start_of. rewrite sum_sizes_stack. apply stack_size_nonneg. rewrite Forall_forall in *. intros x Hx. apply well_formed_wk. apply WF. rewrite <- (firstn_skipn (length hs) (fr_stack f')). apply in_or_app. auto. }
  destruct ps as [|q ps]; [cbn [payload map concat length]; unfold slice; reflexivity|].
  assert (Hk : nth_error (fr_stack (MkFrame (stack_for hs (q :: ps)) 0 false)) (length hs) = Some (raw (payload (q :: ps)))).
  { cbn [fr_stack]. unfold stack_for. rewrite nth_error_app2; rewrite map_length; [rewrite Nat.sub_diag; reflexivity|auto]. }
  set (v := payload (q :: ps)) in *. pose proof (pieces_bytes (q :: ps) Hok) as Hv. fold v in Hv.
  destruct (serialised_emitting _ _ _ _ _ _ (conj HA (conj HR HF)) Hk) as [t [h' E]].
  assert (t = HDR_PAYLOAD) by (eapply emitting_name; [exact E|reflexivity|vm_compute; reflexivity]). subst t.
  pose proof (e_run _ _ _ _ _ _ _ E) as RUN. change (h_fill HDR_PAYLOAD) with FL_none in RUN. cbn [run_fill] in RUN. apply ret_inj in RUN. apply mid_inj in RUN. subst h'.
  destruct (Nat.eq_dec (length v) 0) as [Ev|Ev].
  { rewrite Ev. destruct v; [unfold slice; reflexivity|discriminate]. }
  set (fl := MkField "hex" false (zlen v * 8) 0 None (Some v) FP_default).
  assert (LONE : lone (raw v) 0 fl). { split; [reflexivity|]. intros j g Hj Hg. destruct j as [|j]; [congruence|]. cbn in Hg. destruct j; discriminate. }
  assert (WI : within (raw v) fl). { unfold within. cbn [f_off f_width fl]. change (h_size (raw v)) with (zlen v). pose proof (zlen_nonneg _ v). lia. }
  pose proof (emitted_lone _ _ _ _ _ _ _ HF (e_wf _ _ _ _ _ _ _ E) (e_dst _ _ _ _ _ _ _ E) LONE WI) as HN.
  change (field_data fl) with (Some v) in HN. cbn [f_off f_width fl] in HN. rewrite Z.add_0_r, Z1, HB in HN.
  assert (B8 : bits_of hs = 8 * Z.of_nat (Z.to_nat (bits_of hs / 8))) by lia.
  rewrite B8 in HN at 1. replace (Z.to_nat (zlen v * 8)) with (8 * length v)%nat in HN by (unfold zlen; lia). rewrite number_slice in HN; [|auto|lia].
  apply positional_inj; auto; [apply slice_ok; auto|unfold slice; rewrite firstn_length, skipn_length; lia|]. rewrite HN. apply Z.mod_small.
  pose proof (positional_bytes v Hv) as PB. replace (256 ^ Z.of_nat (length v)) with (2 ^ (zlen v * 8)) in PB; [exact PB|]. rewrite Z.mul_comm, Z.pow_mul_r by (try apply zlen_nonneg; lia). reflexivity.
Qed.

Lemma hdr_for_format : forall p m, well_written p -> In (fst p, m) formats -> format_of (hdr_for p) = Some m.
Proof.
  intros p m Hp Hn. destruct (written_fits p Hp) as [m' [t [HT _]]]. destruct (hdr_for_like _ _ _ HT) as [E1 _].
  pose proof (ft_plain _ _ _ HT) as HN. cbn [existsb] in HN. rewrite !orb_false_iff in HN. destruct HN as [N1 [N2 [N3 [N4 [N5 _]]]]].
  unfold format_of. rewrite E1, N1, N2, N3, N4.
  assert (E : find (fun q => String.eqb (fst q) (fst p)) formats = Some (fst p, m)); [|rewrite E; reflexivity]. apply find_format. auto.
Qed.

Lemma one_format : forall n m m', In (n, m) formats -> In (n, m') formats -> m = m'.
Proof. intros n m m' H1 H2. apply find_format in H1, H2. congruence. Qed.

Lemma whole : forall hs ps, Forall well_written hs -> Forall piece_ok ps -> Z.of_nat (length (text hs ps)) <= 100 -> Z.of_nat (length (payload ps)) <= 134000000 ->
  exists f f' b, argc_frame (text hs ps) = Ret (Some (length (text hs ps), f)) /\ serialised (text hs ps) f f' b /\ fr_has_mask f = false /\
    frame_is hs ps b /\ forall k p, nth_error hs k = Some p -> header_is f k p.
Proof.
  intros hs ps Hw Hok Hl Hp. destruct (text_serialised hs ps Hw Hok Hl Hp) as [f' [b HS]].
  exists (MkFrame (stack_for hs ps) 0 false), f', b.
  split; [apply text_accepted; auto; unfold size_limit; lia|]. split; [exact HS|]. split; [reflexivity|].
  assert (HH : forall k p, nth_error hs k = Some p -> nth_error (stack_for hs ps) k = Some (hdr_for p)).
  { intros k p Hk. unfold stack_for. rewrite nth_error_app1; [rewrite nth_error_map, Hk; auto|rewrite map_length; apply nth_error_Some; congruence]. }
  assert (HW : forall k p, nth_error hs k = Some p -> well_written p) by (intros k p Hk; rewrite Forall_forall in Hw; apply Hw; eapply nth_error_In; eauto).
  pose proof (whole_sizes _ _ _ _ Hw HS) as HZ.
  pose proof (start_header hs ps (length hs) Hw (le_n _)) as HB. rewrite firstn_all in HB.
  assert (HT : sum_sizes (stack_for hs ps) = start_of (stack_for hs ps) (length hs) + Z.of_nat (length (payload ps))).
  { unfold start_of, stack_for. rewrite firstn_app, map_length, Nat.sub_diag. cbn [firstn]. rewrite app_nil_r. rewrite firstn_all2 by (rewrite map_length; lia). rewrite sum_sizes_app, payload_size. auto. }
  destruct (start_same _ _ 0%nat HZ) as [_ Z2]. split.
  - pose proof HS as [[n HA] [HR HF]]. pose proof (emitted_length _ _ _ HF) as HL. constructor.
    + lia.
    + apply (emitted_bytes _ _ _ HF).
    + lia.
    + intros k p Hk m fld off w Hn Hne Hpl. destruct (written_fits p (HW k p Hk)) as [m' [t [HF' HA']]].
      assert (m' = m) by (eapply one_format; [apply (ft_named _ _ _ HF')|exact Hn]). subst m'. destruct (written_value p m t HF' HA') as [_ HV]. specialize (HV fld off w Hne Hpl).
      destruct (hdr_for_like _ _ _ HF') as [EN _].
      assert (Hkl : (k < length hs)%nat) by (apply nth_error_Some; congruence).
      assert (EA : bits_at hs b k off w = field_at f' b k off (Z.to_nat w)).
      { unfold bits_at, field_at. f_equal. destruct (start_same _ _ k HZ) as [Z1 _]. rewrite Z1. rewrite <- (start_header hs ps k Hw) by lia. auto. }
      rewrite EA. destruct (layout _ _ _ _ _ _ fld off w HS (HH k p Hk)) as [L1 L2]; [split; [auto|exists m; split; [apply hdr_for_format; auto; apply (HW k p Hk)|auto]]|].
      destruct (last_given (snd p) fld) as [s|].
      * destruct HV as [v [V1 V2]]. intros x HM. rewrite (L1 v V1). auto.
      * intros Hwo. rewrite <- EN. apply L2; auto. rewrite EN. auto.
    + eapply payload_placed; eauto.
    + intros i Hi. destruct (Nat.lt_ge_cases i (length b)) as [Hlt|Hge]; [|apply nth_overflow; auto].
      eapply emitted_tail; [exact HF|eapply accepted_well_formed; eauto|]. rewrite Z2. lia.
  - intros k p Hk. destruct (written_fits p (HW k p Hk)) as [m [t [HF' HA']]]. destruct (hdr_for_like _ _ _ HF') as [EN _]. split.
    + exists (hdr_for p). split; [apply HH; auto|auto].
    + intros m' fld off w Hn Hne Hpl. assert (m' = m) by (eapply one_format; [exact Hn|apply (ft_named _ _ _ HF')]). subst m'.
      destruct (written_value p m t HF' HA') as [_ HV]. specialize (HV fld off w Hne Hpl).
      unfold user_gave. cbn [fr_stack]. rewrite (HH k p Hk). unfold given. unfold value_of in HV. destruct (fits_field _ _ _ _ _ _ HF' Hne Hpl) as [f0 Hf0].
      destruct (last_given (snd p) fld); [destruct HV as [v [V1 _]]; destruct (find_field (hdr_for p) fld); [rewrite V1; auto|discriminate]|].
      destruct (find_field (hdr_for p) fld); [rewrite HV; auto|auto].
Qed.

(** *** The program *)
Lemma text_printed : forall hs ps e f f' b, Forall well_written hs -> text hs ps <> [] ->
  argc_frame (text hs ps) = Ret (Some (length (text hs ps), f)) -> serialised (text hs ps) f f' b -> fr_has_mask f = false ->
  argc_cmds ("hex"%string :: text hs ps) e = Ret (0, [EvHex b None]).
Proof.
  intros hs ps e f f' b Hw Hn HA [_ [_ HF]] HM.
  assert (HM' : fr_has_mask f' = false). { apply frame_to_buf_inv in HF. destruct HF as [_ [_ [HF _]]]. congruence. }
  unfold argc_cmds, parse_cmds, CMD_MAX.
  destruct (text hs ps) as [|w r] eqn:Et; [congruence|]. pose proof (text_head _ _ _ _ Hw Et) as Hh.
  assert (HN : String.eqb w "name" = false).
  { assert (K : forallb (fun w => negb (String.eqb w "name")) ("data"%string :: map fst formats) = true) by (vm_compute; reflexivity). rewrite forallb_forall in K. specialize (K w Hh). apply negb_true_iff in K. auto. }
  assert (HC : argc_cmd ("hex"%string :: w :: r) = Ret (COk (S (length (w :: r))) (MkCmd CT_hex None None (Some f') (Some b) None false 0))).
  { unfold argc_cmd. change (cmd_word "hex") with (Some CT_hex). cbv iota.
    assert (HX : cmd_frame CT_hex None None 0 1 (w :: r) = finish_cmd CT_hex None None 0 1 (w :: r)) by (unfold cmd_frame; rewrite HN; destruct r; reflexivity).
    rewrite HX. unfold finish_cmd. rewrite HA. cbn [bind length]. rewrite HF. cbn [bind]. rewrite HM'. reflexivity. }
  change 100%nat with (S (S 98)). cbn [argc_cmds_loop]. rewrite HC. cbn [bind skipn length]. rewrite skipn_all. destruct e as [o rds]. destruct rds; reflexivity.
Qed.

Lemma whole_printed : forall hs ps e, Forall well_written hs -> Forall piece_ok ps -> text hs ps <> [] ->
  Z.of_nat (length (text hs ps)) <= 100 -> Z.of_nat (length (payload ps)) <= 134000000 ->
  exists b, frame_is hs ps b /\ argc_cmds ("hex"%string :: text hs ps) e = Ret (0, [EvHex b None]).
Proof.
  intros hs ps e Hw Hok Hn Hl Hp. destruct (whole hs ps Hw Hok Hl Hp) as [f [f' [b [HA [HS [HM [HI _]]]]]]]. exists b. split; auto. eapply text_printed; eauto.
Qed.

Lemma text_command : forall hs ps f f' b, text hs ps <> [] -> argc_frame (text hs ps) = Ret (Some (length (text hs ps), f)) -> serialised (text hs ps) f f' b ->
  fr_has_mask f = false -> a_frame (text hs ps) f' b None.
Proof.
  intros hs ps f f' b Hn HA [_ [_ HF]] HM. split; [exact Hn|]. exists f. split; [exact HA|]. split; [exact HF|].
  assert (HM' : fr_has_mask f' = false). { apply frame_to_buf_inv in HF. destruct HF as [_ [_ [HF _]]]. congruence. }
  rewrite HM'. auto.
Qed.

Lemma whole_command : forall hs ps, Forall well_written hs -> Forall piece_ok ps -> text hs ps <> [] ->
  Z.of_nat (length (text hs ps)) <= 100 -> Z.of_nat (length (payload ps)) <= 134000000 ->
  exists f b, frame_is hs ps b /\ a_frame (text hs ps) f b None.
Proof.
  intros hs ps Hw Hok Hn Hl Hp. destruct (whole hs ps Hw Hok Hl Hp) as [f [f' [b [HA [HS [HM [HI _]]]]]]]. exists f', b. split; auto. eapply text_command; eauto.
Qed.

(** What the program prints about words that can be read: nothing (C78). *)

From Verif Require Import PTextIp PTextNum PTextHex Frame PSer SpecParse PParse PArgs PAssign PField SpecFill PWords SpecLayout Exec SpecExec SpecWhole PWhole Report SpecReport PReport PReport2 SpecHelp PHelp SpecExact PExact SpecDoc PDoc PDoc2 SpecMain PMain SpecSay.
Local Open Scope string_scope.

Definition readable (t : hdr) (n v : string) : Prop :=
  n <> "help" /\ ~ ignore_word n /\ v <> "help" /\ ~ ignore_word v /\
  exists j f b, nth_error (h_fields t) j = Some f /\ f_name f = n /\ first_named (h_fields t) j n /\ field_text (f_parser f) v (Z.max 1 ((f_width f + 7) / 8)) = Ret (Some b).

Lemma value_quiet : forall p v k b, field_text p v k = Ret (Some b) -> value_says p v k = "".
Proof.
  intros p v k b H. destruct (String.eqb_spec (value_says p v k) "") as [|NE]; [auto|]. exfalso. destruct (field_text_run p HDR_PAYLOAD v k _ H) as [_ R]. rewrite (value_said _ _ _ _ NE) in R. congruence.
Qed.

Lemma silent_bind : forall A (m : out (A * string)), ('(p, s) <- m;; Ret (p, "" ++ s)) = m.
Proof. intros A [[p s]|c]; reflexivity. Qed.

Lemma hpf_quiet_go : forall asg t rest fuel i h pad mask,
  Forall (fun f => (0 <= f_width f)%Z) (h_fields t) -> like t h -> (forall n v, In (n, v) asg -> readable t n v) ->
  hpf_says (length asg + fuel) (words_of asg ++ rest) i h pad mask = hpf_says fuel rest (i + 2 * length asg) (fold_left assign asg h) pad mask.
Proof.
  induction asg as [|[n v] asg IH]; intros t rest fuel i h pad mask Hw Hl Ha.
  - cbn [words_of flat_map app length fold_left plus]. rewrite Nat.mul_0_r, Nat.add_0_r. auto.
  - destruct (Ha n v (or_introl eq_refl)) as [H1 [H2 [H3 [H4 [j [f [b [Hj [Hn [HF Ho]]]]]]]]]].
    pose proof (PAssign.find_first _ _ _ _ Hj Hn HF) as Hff. pose proof (like_find t h n f Hl Hff) as [g [Hg [Hp Hgw]]].
    assert (Hw0 : (0 <= f_width f)%Z). { rewrite Forall_forall in Hw. apply Hw. eapply nth_error_In; eauto. }
    cbn [words_of flat_map app fst snd length plus] in *. fold (words_of asg) in *. cbn [hpf_says].
    apply String.eqb_neq in H1. rewrite H1. rewrite (is_ign_false _ H2). cbn [andb]. rewrite Hg.
    pose proof (like_assign t h (n, v) Hl) as Hl'. pose proof (is_ign_false _ H4) as Ei. rewrite Ei.
    apply String.eqb_neq in H3. rewrite H3. rewrite bytes_of_width by lia.
    rewrite <- Hp, <- Hgw in Ho. destruct (field_text_run _ (fmod n (set_val None) h) _ _ _ Ho) as [Hm Hr].
    rewrite Hm, Hr. cbn [bind]. rewrite (value_quiet _ _ _ _ Ho), silent_bind. rewrite (fmod_assign n v h g _ Hg Ei); [|rewrite bytes_of_width by lia; eauto].
    rewrite (IH t); auto; [|intros; apply Ha; right; auto]. cbn [fold_left length]. f_equal. lia.
Qed.

Lemma hpf_quiet_ends : forall t h rest fuel i pad mask, like t h -> SpecParse.ends t rest -> (length rest < fuel)%nat ->
  hpf_says fuel rest i h pad mask = Ret (POk i h pad mask, "").
Proof.
  intros t h rest fuel i pad mask Hl He Hf. destruct fuel as [|fuel]; [lia|]. destruct rest as [|w r]; [reflexivity|].
  destruct He as [H1 [H2 H3]]. cbn [hpf_says]. apply String.eqb_neq in H1. rewrite H1. rewrite (is_ign_false _ H2). cbn [andb].
  rewrite (like_find_none t h w Hl); auto.
Qed.

(** *** The payload *)
Lemma bytes_quiet : forall s n b, parse_bytes s n = Ret (Some b) -> bytes_says s n = "".
Proof. intros s n b H. destruct (String.eqb_spec (bytes_says s n) "") as [|NE]; [auto|]. rewrite (bytes_said _ _ NE) in H. discriminate. Qed.

Lemma piece_quiet : forall p rest, piece_ok p -> piece_says (piece_words p ++ rest) = "".
Proof.
  intros p rest H. pose proof (piece_step p rest H) as E. destruct p as [t d|t|t|ct vt c v|pt ct c]; cbn [piece_words app piece_says String.eqb Ascii.eqb Bool.eqb piece_ok] in *; auto.
  - destruct H as [Hd Hn]. destruct (String.eqb_spec (hex_says t) "") as [|NE]; [auto|]. pose proof (proj1 (hex_said _ NE) 0%Z) as X. rewrite (parse_var_hex_dump d t Hd Hn) in X. discriminate.
  - destruct H as [Hc [Hv [Hcr Hvr]]]. pose proof (parse_uint32_number ct c Hc ltac:(lia)) as P. rewrite P. 
    assert (Q : bytes_says ct 4 = "") by (unfold parse_uint32 in P; destruct (parse_bytes ct 4) as [[x|]|] eqn:Eb; try discriminate; eapply bytes_quiet; eauto).
    pose proof (parse_uint8_number vt v Hv ltac:(lia)) as P2. unfold parse_uint8 in P2. destruct (parse_bytes vt 1) as [[x|]|] eqn:Eb; try discriminate. rewrite Q, (bytes_quiet _ _ _ Eb). reflexivity.
  - destruct H as [Hc Hcr]. pose proof (parse_uint32_number ct c Hc ltac:(lia)) as P. unfold parse_uint32 in P. destruct (parse_bytes ct 4) as [[x|]|] eqn:Eb; try discriminate. eapply bytes_quiet; eauto.
Qed.

Lemma pieces_quiet : forall ps fuel, Forall piece_ok ps -> pieces_say fuel (flat_map piece_words ps) = "".
Proof.
  induction ps as [|p ps IH]; intros fuel H; (destruct fuel as [|fuel]; [reflexivity|]); cbn [pieces_say flat_map].
  - reflexivity.
  - rewrite (piece_quiet p _ (Forall_inv H)), (piece_step p _ (Forall_inv H)), skipn_app, skipn_all, Nat.sub_diag. cbn [app skipn]. rewrite IH by (eapply Forall_inv_tail; eauto). reflexivity.
Qed.

(** *** All headers *)
Record told (p : string * list (string * string)) (t : hdr) : Prop := MkTold {
  td_find : find_tmpl (fst p) = Some t;
  td_parser : h_parser t = HP_fields;
  td_help : fst p <> "help";
  td_widths : Forall (fun f => (0 <= f_width f)%Z) (h_fields t);
  td_asg : forall n v, In (n, v) (snd p) -> readable t n v }.

Fixpoint apart (hs : headers) (ps : list piece) : Prop :=
  match hs with
  | [] => True
  | p :: r => (exists t, told p t /\ SpecParse.ends t (text r ps)) /\ apart r ps
  end.

Lemma payload_quiet : forall ps fuel i stk, Forall piece_ok ps -> (length (payload_text ps) < fuel)%nat ->
  (zlen stk + Z.of_nat (length (payload_text ps)) <= 100)%Z -> (Z.of_nat (length (payload ps)) <= size_limit)%Z ->
  exists o, argc_frame_loop_says fuel (payload_text ps) i (MkFrame stk 0 false) = Ret (o, "").
Proof.
  intros ps fuel i stk Hok Hf Hs Hl. destruct fuel as [|fuel]; [lia|]. destruct ps as [|p ps]; [eexists; reflexivity|].
  pose proof (payload_loop (p :: ps) (S fuel) i stk Hok Hf Hs Hl) as PL.
  unfold payload_text in *. set (ws := flat_map piece_words (p :: ps)) in *. cbn [length] in *. cbn [argc_frame_loop_says argc_frame_loop] in *.
  change (String.eqb "data" "help") with false in *. cbv iota in *. replace (find_tmpl "data") with (Some HDR_PAYLOAD) in * by (vm_compute; reflexivity).
  cbn [fr_stack fr_padding fr_has_mask] in *. destruct (FRAME_STACK_MAX <=? zlen stk)%Z; [discriminate|].
  unfold parse_hdr_says. replace (h_parser HDR_PAYLOAD) with HP_payload in * by (vm_compute; reflexivity).
  destruct (parse_hdr ws HDR_PAYLOAD 0 false) as [q|] eqn:EQ; [|discriminate]. cbn [bind] in *. unfold var_bytes_say, ws. rewrite pieces_quiet by auto. fold ws.
  destruct q as [|n h pad mask]; [eexists; reflexivity|]. 
  assert (Hn : skipn n ws = []).
  { unfold parse_hdr in EQ. replace (h_parser HDR_PAYLOAD) with HP_payload in EQ by (vm_compute; reflexivity). unfold payload_parser in EQ.
    pose proof (pieces_parsed (p :: ps) [] ltac:(discriminate) Hok (or_introl eq_refl)) as HP. rewrite app_nil_r in HP. unfold ws in EQ. rewrite HP in EQ. fold ws in EQ. fold (payload (p :: ps)) in EQ. clearbody ws. cbn [bind] in EQ.
    destruct (Z.of_nat (length ws) <? 0)%Z; [discriminate|]. destruct (Z.eqb_spec (Z.of_nat (length ws)) 0) as [E0|E0]; [destruct ws; [apply skipn_nil|cbn [length] in E0; lia]|]. destruct (size_limit <? zlen (payload (p :: ps)))%Z; [discriminate|]. cbn [bind] in EQ.
    assert (n = Z.to_nat (Z.of_nat (length ws))) by congruence. subst n. rewrite Nat2Z.id. apply skipn_all. }
  rewrite Hn. destruct fuel as [|fuel]; [lia|]. cbn [argc_frame_loop_says bind]. eexists. reflexivity.
Qed.

Lemma frame_quiet : forall hs ps fuel i stk, apart hs ps -> Forall piece_ok ps -> (length (text hs ps) < fuel)%nat ->
  (zlen stk + Z.of_nat (length (text hs ps)) <= 100)%Z -> (Z.of_nat (length (payload ps)) <= size_limit)%Z ->
  exists o, argc_frame_loop_says fuel (text hs ps) i (MkFrame stk 0 false) = Ret (o, "").
Proof.
  induction hs as [|p hs IH]; intros ps fuel i stk Ha Hok Hf Hs Hl.
  { unfold text in *. cbn [flat_map map app] in *. apply payload_quiet; auto. }
  destruct Ha as [[t [HT HE]] Ha].
  assert (E : text (p :: hs) ps = fst p :: words_of (snd p) ++ text hs ps) by (unfold text; cbn [flat_map header_text]; rewrite <- app_assoc; reflexivity).
  rewrite E in *. cbn [length] in *. rewrite app_length, words_length in *. destruct fuel as [|fuel]; [lia|]. cbn [argc_frame_loop_says].
  pose proof (td_help _ _ HT) as Eh. apply String.eqb_neq in Eh. rewrite Eh, (td_find _ _ HT). cbn [fr_stack fr_padding fr_has_mask]. unfold FRAME_STACK_MAX. destruct (Z.leb_spec 100 (zlen stk)); [lia|].
  unfold parse_hdr_says. rewrite (td_parser _ _ HT). unfold parse_fields_says.
  replace (S (length (words_of (snd p) ++ text hs ps))) with (length (snd p) + (length (snd p) + S (length (text hs ps))))%nat by (rewrite app_length, words_length; lia).
  rewrite (hpf_quiet_go (snd p) t); [|apply HT|apply like_refl|apply HT]. rewrite (hpf_quiet_ends t); [|apply fold_like; apply like_refl|exact HE|lia].
  cbn [bind]. rewrite Nat.add_0_l, <- words_length, skipn_app, skipn_all, Nat.sub_diag. cbn [app skipn].
  destruct (IH ps fuel (i + 1 + length (words_of (snd p)))%nat (stk ++ [fold_left assign (snd p) t])%list Ha Hok ltac:(lia) ltac:(rewrite zlen_app, zlen_cons, zlen_nil; lia) Hl) as [o EO].
  rewrite EO. cbn [bind]. eexists. reflexivity.
Qed.

Lemma words_quiet : forall hs ps, apart hs ps -> Forall piece_ok ps -> (Z.of_nat (length (text hs ps)) <= 100)%Z -> (Z.of_nat (length (payload ps)) <= size_limit)%Z ->
  exists o, argc_frame_says (text hs ps) = Ret (o, "").
Proof.
  intros hs ps Ha Hok Hl Hp. unfold argc_frame_says, FRAME_STACK_MAX, zlen. destruct (Z.ltb_spec 100 (Z.of_nat (length (text hs ps)))); [lia|]. unfold empty_frame. apply frame_quiet; auto.
Qed.

Lemma written_apart : forall hs ps, Forall well_written hs -> apart hs ps.
Proof.
  induction hs as [|p hs IH]; intros ps Hw; [exact I|]. split; [|apply IH; eapply Forall_inv_tail; eauto].
  pose proof (Forall_inv Hw) as Hp. pose proof (Forall_inv_tail Hw) as Hws. destruct (written_fits p Hp) as [m [t [HT HA]]]. exists t. split.
  - constructor; [apply HT|apply HT| |apply tmpl_widths; apply HT|].
    + pose proof (tmpl_help t (ft_tmpl _ _ _ HT)) as K. rewrite (ft_name _ _ _ HT) in K. apply String.eqb_neq. auto.
    + intros n v Hin. destruct (HA n v Hin) as [Hne [off [w [x [Hp' HM]]]]]. destruct (fits_field _ _ _ _ _ _ HT Hne Hp') as [f Hf].
      destruct (means_read _ _ _ _ _ _ _ _ _ (ft_fields _ _ _ HT n (place_listed _ _ _ _ _ Hp')) Hne Hp' Hf HM) as [_ [_ [_ [H4 [H5 [l [H6 _]]]]]]].
      apply keyword_facts in H4, H5. split; [apply H4|split; [apply H4|split; [apply H5|split; [apply H5|]]]].
      unfold find_field in Hf. destruct (POrigin.find_first _ _ _ _ Hf) as [j [K1 [K2 K3]]]. apply String.eqb_eq in K2. exists j, f, l. split; auto. split; auto. split; [|auto].
      intros i g Hi Hg E. specialize (K3 i g Hi Hg). cbv beta in K3. rewrite E, String.eqb_refl in K3. discriminate.
  - destruct (text hs ps) as [|w r] eqn:Et; [exact I|]. destruct (ft_words _ _ _ HT w (text_head _ _ _ _ Hws Et)) as [A B]. apply keyword_facts in A. split; [apply A|split; [apply A|auto]].
Qed.

Lemma helped_apart : forall hs ps, Forall (fun p => exists t, helped p t) hs -> clear_names hs ps -> apart hs ps.
Proof.
  induction hs as [|p hs IH]; intros ps Hw HC; [exact I|]. split; [|apply IH; [eapply Forall_inv_tail; eauto|eapply clear_tail; eauto]].
  pose proof (Forall_inv Hw) as [t HT]. pose proof (Forall_inv_tail Hw) as Hws. pose proof (hp_static _ _ HT) as HS. exists t. split.
  - constructor; [| apply HS| |apply tmpl_widths; apply HS|].
    + pose proof (s_find _ HS) as EF. rewrite (hp_name _ _ HT) in EF. exact EF.
    + pose proof (tmpl_help t (s_tmpl _ HS)) as K. rewrite (hp_name _ _ HT) in K. apply String.eqb_neq. auto.
    + intros n v Hin. destruct (hp_asg _ _ HT _ _ Hin) as [f [x [G1 G2]]]. rewrite <- (hp_name _ _ HT) in G2. destruct (means_static t n f v x HS G1 G2) as [_ [H4 [H5 [l [H6 _]]]]].
      apply keyword_facts in H4, H5. split; [apply H4|split; [apply H4|split; [apply H5|split; [apply H5|]]]].
      unfold find_field in G1. destruct (POrigin.find_first _ _ _ _ G1) as [j [K1 [K2 K3]]]. apply String.eqb_eq in K2. exists j, f, l. split; auto. split; auto. split; [|auto].
      intros i g Hi Hg E. specialize (K3 i g Hi Hg). cbv beta in K3. rewrite E, String.eqb_refl in K3. discriminate.
  - destruct (text hs ps) as [|w r] eqn:Et; [exact I|]. destruct (helped_text _ _ _ _ Hws Et) as [A B]. cbn [existsb] in B. apply orb_false_iff in B. destruct B as [_ B]. apply keyword_facts in B. split; [apply B|split; [apply B|]].
    intros f Hin. apply (HC 0%nat p w t f); auto.
Qed.

(** *** The command "hex" *)
Lemma hex_quiet : forall F, F <> [] -> (forall w r, F = w :: r -> w <> "name") -> (exists o, argc_frame_says F = Ret (o, "")) ->
  (exists f b m, a_frame F f b m) -> exists o, parse_cmds_says ("hex" :: F) = Ret (o, "").
Proof.
  intros F HF HN [o HQ] HA. unfold parse_cmds_says. change CMD_MAX with (S (pred CMD_MAX)). cbn [argc_cmds_says].
  destruct F as [|w F]; [congruence|]. unfold argc_cmd_says. change (cmd_word "hex") with (Some CT_hex). cbv iota beta.
  assert (EC : cmd_frame_says CT_hex None None 0 1 (w :: F) = finish_cmd_says CT_hex None None 0 1 (w :: F)).
  { unfold cmd_frame_says. destruct F as [|x F]; [reflexivity|]. specialize (HN w _ eq_refl). apply String.eqb_neq in HN. rewrite HN. reflexivity. }
  rewrite EC. unfold finish_cmd_says. rewrite HQ. cbn [bind].
  destruct HA as [f [b [m [_ [f0 [A1 [A2 A3]]]]]]]. pose proof (frame_same (w :: F)) as K. rewrite HQ in K. cbn [same] in K. rewrite A1 in K. apply ret_inj in K. subst o.
  cbn [length]. rewrite A2. cbn [bind]. destruct (fr_has_mask f).
  - destruct A3 as [x [A3 _]]. rewrite A3. cbn [bind]. cbn [skipn plus]. rewrite skipn_all. destruct (pred CMD_MAX); cbn [argc_cmds_says bind]; eexists; reflexivity.
  - cbn [bind]. cbn [skipn plus]. rewrite skipn_all. destruct (pred CMD_MAX); cbn [argc_cmds_says bind]; eexists; reflexivity.
Qed.

Lemma not_name : forall hs ps, apart hs ps -> forall w r, text hs ps = w :: r -> w <> "name".
Proof.
  intros [|p hs] ps HA w r E.
  - unfold text in E. cbn [flat_map app] in E. destruct ps; [discriminate|]. cbn [payload_text] in E. injection E as <- _. discriminate.
  - destruct HA as [[t [HT _]] _]. unfold text in E. cbn [flat_map header_text app] in E. injection E as <- _. intros EN. pose proof (td_find _ _ HT) as K. rewrite EN in K. vm_compute in K. discriminate.
Qed.

(** C78 *)
Lemma operands_getopt : forall args ops, operands args ops -> exists t caps, getopt args = ORun t caps ops.
Proof.
  intros args ops [ps [rest [H1 [-> [[-> ->]|[ws [-> ->]]]]]]].
  - rewrite (options ps [] _ H1 End_none). eauto.
  - rewrite (options ps _ _ H1 (End_dashes ws)). eauto.
Qed.

Lemma frame_shown : forall version args e hs ps, operands args ("hex" :: text hs ps) ->
  Forall well_written hs -> Forall piece_ok ps -> text hs ps <> [] -> (Z.of_nat (length (text hs ps)) <= 100)%Z -> (Z.of_nat (length (payload ps)) <= 110000)%Z ->
  exists b, the_frame hs ps b /\ main_says version args e = Ret (0%Z, hex_str b ++ String newline "", "").
Proof.
  intros version args e hs ps HO Hw Hok Hn Hl Hp. destruct (operands_getopt _ _ HO) as [t [caps HG]]. destruct (exact_whole hs ps Hw Hok Hl Hp) as [f [f' [b [HA [HS [HM HF]]]]]].
  pose proof (proj1 (exact_printed hs ps e b Hw Hok Hn Hl Hp) HF) as HR. exists b. split; [exact HF|].
  assert (HQ : exists o, parse_cmds_says ("hex" :: text hs ps) = Ret (o, "")).
  { pose proof (written_apart hs ps Hw) as AP. apply hex_quiet; [exact Hn|exact (not_name hs ps AP)|apply words_quiet; auto; unfold size_limit; lia|]. do 3 eexists. eapply text_command; eauto. }
  rewrite (main_text version args e t caps _ "" _ _ HG HQ HR). unfold stdout. cbn [map texts event_stdout]. sapp. reflexivity.
Qed.

Lemma frame_line : forall version args e hs ps, operands args ("hex" :: text hs ps) ->
  Forall well_written hs -> Forall piece_ok ps -> text hs ps <> [] -> (Z.of_nat (length (text hs ps)) <= 100)%Z -> (Z.of_nat (length (payload ps)) <= 110000)%Z ->
  exists b s, the_frame hs ps b /\ hex_text b s /\ main_says version args e = Ret (0%Z, s ++ String newline "", "").
Proof.
  intros version args e hs ps HO Hw Hok Hn Hl Hp. destruct (frame_shown version args e hs ps HO Hw Hok Hn Hl Hp) as [b [HF HR]]. exists b, (hex_str b). split; [exact HF|]. split; [|exact HR].
  apply hex_is_text. apply is_byte_bytes. apply (fi_bytes _ _ _ (proj1 HF)).
Qed.

Lemma snoc_inj : forall c a b, a ++ String c "" = b ++ String c "" -> a = b.
Proof.
  induction a as [|x a IH]; intros b H; destruct b as [|y b]; [auto| | |]; cbn [append] in H.
  - exfalso. injection H as _ H. destruct b; discriminate.
  - exfalso. injection H as _ H. destruct a; discriminate.
  - injection H as -> H. f_equal. auto.
Qed.

Lemma formats_positive : forallb (fun p => (0 <=? bits (snd p))%Z) formats = true.
Proof. vm_compute. reflexivity. Qed.

(** What is printed, given as data, is printed again. *)
Lemma line_again : forall version args args' e e' hs ps s, operands args ("hex" :: text hs ps) -> operands args' ["hex"; "data"; "hex"; s] ->
  Forall well_written hs -> Forall piece_ok ps -> text hs ps <> [] -> (Z.of_nat (length (text hs ps)) <= 100)%Z -> (Z.of_nat (length (payload ps)) <= 90000)%Z ->
  main_says version args e = Ret (0%Z, s ++ String newline "", "") -> main_says version args' e' = Ret (0%Z, s ++ String newline "", "").
Proof.
  intros version args args' e e' hs ps s HO HO' Hw Hok Hn Hl Hp HM. destruct (frame_shown version args e hs ps HO Hw Hok Hn Hl ltac:(lia)) as [b [HF HR]].
  assert (ES : s = hex_str b). { rewrite HM in HR. apply ret_inj in HR. apply pair_inj in HR. destruct HR as [HR _]. apply pair_inj in HR. destruct HR as [_ HR]. apply (snoc_inj _ _ _ HR). }
  pose proof (fi_bytes _ _ _ (proj1 HF)) as HB. pose proof (proj1 (is_byte_bytes b) HB) as HB'. pose proof (fi_size _ _ _ (proj1 HF)) as HZ.
  assert (HBL : (0 <= bits_of hs / 8 <= 20000)%Z).
  { assert (K : (Z.of_nat (length hs) <= 100)%Z) by (pose proof (text_long hs ps); lia). rewrite <- (stack_bits_of hs Hw).
    assert (Q : (0 <= sum_sizes (map hdr_for hs) <= 200 * Z.of_nat (length hs))%Z).
    { clear - Hw. unfold sum_sizes. induction hs as [|p hs IH]; [cbn; lia|]. cbn [map fold_right length]. specialize (IH (Forall_inv_tail Hw)). destruct (hdr_for_bits p (Forall_inv Hw)) as [Q1 Q2]. destruct (Forall_inv Hw) as [m [Hm _]].
      assert (0 <= header_bits (fst p))%Z. { rewrite (header_bits_named _ _ Hm). pose proof formats_positive as FP. rewrite forallb_forall in FP. specialize (FP _ Hm). cbn [snd] in FP. lia. } lia. }
    lia. }
  assert (Hd : hexdump b s) by (rewrite ES; apply hex_is_text; auto).
  destruct (frame_shown version args' e' [] [Hex s b] HO') as [c [CF CR]]; [constructor| |discriminate|cbn; lia| |].
  - constructor; [|constructor]. split; [exact Hd|]. intros ->. cbn [length] in HZ. lia.
  - unfold payload. cbn [map piece_data concat]. rewrite app_nil_r. lia.
  - rewrite CR. do 4 f_equal. rewrite ES. f_equal. destruct CF as [CF _]. pose proof (fi_size _ _ _ CF) as Z1. pose proof (fi_payload _ _ _ CF) as P1. unfold payload in *. cbn [map piece_data concat] in *. rewrite app_nil_r in *.
    change (bits_of [] / 8)%Z with 0%Z in *. cbn [Z.to_nat] in P1. unfold slice in P1. cbn [skipn] in P1. rewrite <- P1 at 1. symmetry. apply firstn_all2. lia.
Qed.

Lemma help_line : forall version args e hs ps, operands args ("hex" :: text hs ps) ->
  Forall from_help hs -> unambiguous hs ps -> Forall piece_ok ps -> text hs ps <> [] -> (Z.of_nat (length (text hs ps)) <= 100)%Z -> (Z.of_nat (length (payload ps)) <= 134000000)%Z ->
  exists b s, as_help_says hs ps b /\ hex_text b s /\ main_says version args e = Ret (0%Z, s ++ String newline "", "").
Proof.
  intros version args e hs ps HO Hh HU Hok Hn Hl Hp. destruct (operands_getopt _ _ HO) as [t [caps HG]]. destruct (doc_printed hs ps e Hh HU Hok Hn Hl Hp) as [b [HF HR]]. exists b, (hex_str b). split; [exact HF|]. split; [apply hex_is_text; apply is_byte_bytes; exact (ah_bytes _ _ _ HF)|].
  assert (HQ : exists o, parse_cmds_says ("hex" :: text hs ps) = Ret (o, "")).
  { assert (AP : apart hs ps) by (apply helped_apart; [apply from_help_helped; auto|apply unambiguous_clear; auto]).
    apply hex_quiet; [exact Hn|exact (not_name hs ps AP)|apply words_quiet; auto; unfold size_limit; lia|]. destruct (doc_command hs ps Hh HU Hok Hn Hl Hp) as [f [b' [_ HC]]]. eauto. }
  rewrite (main_text version args e t caps _ "" _ _ HG HQ HR). unfold stdout. cbn [map texts event_stdout]. sapp. reflexivity.
Qed.

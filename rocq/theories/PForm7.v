(** Frames of parts are emitted (C82): there is only one. *)

From Verif Require Import PTextIp PTextNum PTextHex PTextMac PTextAddr Frame PSer SpecParse PParse PMatch SpecFrame PFrame PInv PStep PArgs PSoft PFill PGroup PAll PSafe PAssign PField SpecOrigin POrigin PImage PSum PEmit SpecFill PCheck PCheck2 PLen PKeep PTwice PCoap PSegs PWords SpecLayout PLayout Cmd Exec SpecExec PCmd PPair PExec PReplay SpecWhole PWhole SpecExact PExact SpecForm PForm PForm2 PForm3 PForm4 PForm5 PForm6.

(** *** Two frames for the same parts *)
Lemma ip_form : forall n asg m, form (Header n asg) m -> (n = "ipv4"%string -> bits m = 160 /\ place m "chksum" = Some (80, 16)) /\ (n = "ipv6"%string -> bits m = 320 /\ place m "chksum" = None).
Proof.
  intros n asg m HF. split; intros ->.
  - pose proof (form_table _ _ _ HF ltac:(intros Q; cbn in Q; intuition discriminate)) as Hn. assert (Em : find (fun q => String.eqb (fst q) "ipv4") formats = Some ("ipv4"%string, m)) by (apply find_format; exact Hn).
    cbn in Em. apply some_inj in Em. apply pair_inj in Em. destruct Em as [_ Em]. rewrite <- Em. split; reflexivity.
  - pose proof (form_table _ _ _ HF ltac:(intros Q; cbn in Q; intuition discriminate)) as Hn. assert (Em : find (fun q => String.eqb (fst q) "ipv6") formats = Some ("ipv6"%string, m)) by (apply find_format; exact Hn).
    cbn in Em. apply some_inj in Em. apply pair_inj in Em. destruct Em as [_ Em]. rewrite <- Em. split; reflexivity.
Qed.

Lemma names_nth : forall (its : list item) j n, nth_error (names_of its) j = Some n -> exists q, nth_error its j = Some q /\ part_name (fst q) = n.
Proof.
  induction its as [|q its IH]; intros [|j] n H; try discriminate H.
  - exists q. split; [reflexivity|]. cbn in H. congruence.
  - apply (IH j n H).
Qed.

Section Two.
Context (its : list item) (b b' : list Z) (HW : Forall well_put its) (F : spelled its b) (F' : spelled its b').

Lemma same_length : length b = length b'.
Proof. pose proof (sp_size _ _ F). pose proof (sp_size _ _ F'). lia. Qed.

Lemma part_form : forall k p m, nth_error its k = Some (p, m) -> form p m.
Proof. intros k p m Hk. rewrite Forall_forall in HW. destruct (HW _ (nth_error_In _ _ Hk)) as [H _]. exact H. Qed.

Lemma same_field : forall k n asg m fld off w, nth_error its k = Some (Header n asg, m) -> place m fld = Some (off, w) ->
  (last_given asg fld = None -> unset its b k n m fld = unset its b' k n m fld) ->
  forall i, off <= i < off + w -> bit_at b (total (firstn k its) + i) = bit_at b' (total (firstn k its) + i).
Proof.
  intros k n asg m fld off w Hk Hp Hv i Hi.
  assert (E : number_at b (total (firstn k its) + off) (Z.to_nat w) = number_at b' (total (firstn k its) + off) (Z.to_nat w)).
  { pose proof (sp_fields _ _ F _ _ _ _ _ _ _ Hk Hp) as G1. pose proof (sp_fields _ _ F' _ _ _ _ _ _ _ Hk Hp) as G2. destruct (last_given asg fld) as [s|] eqn:Eg.
    - rewrite Forall_forall in HW. destruct (HW _ (nth_error_In _ _ Hk)) as [_ HA]. cbn [fst snd] in HA. destruct (HA _ _ (last_given_in _ _ _ Eg)) as [_ [o2 [w2 [x [HP2 HM]]]]]. assert (w2 = w) by congruence. subst w2.
      rewrite (G1 x HM), (G2 x HM). reflexivity.
    - rewrite G1, G2. auto. }
  replace (total (firstn k its) + i) with (total (firstn k its) + off + (i - off)) by lia. apply (number_bits _ _ _ _ E). lia.
Qed.

Lemma same_bytes : Forall is_byte b /\ Forall is_byte b'.
Proof. split; [apply (sp_bytes _ _ F)|apply (sp_bytes _ _ F')]. Qed.

Lemma same_raw : forall k p m d i, nth_error its k = Some (p, m) -> raw_bytes p d -> 0 <= i < 8 * Z.of_nat (length d) -> bit_at b (total (firstn k its) + i) = bit_at b' (total (firstn k its) + i).
Proof.
  intros k p m d i Hk HR Hi. pose proof (sp_raw _ _ F _ _ _ _ Hk HR) as P1. pose proof (sp_raw _ _ F' _ _ _ _ Hk HR) as P2. destruct (begins_bits its k HW) as [S1 [S2 S3]].
  assert (E : nth (Z.to_nat ((total (firstn k its) + i) / 8)) b 0 = nth (Z.to_nat ((total (firstn k its) + i) / 8)) b' 0).
  { set (s := Z.to_nat (begins its k)) in *. replace (Z.to_nat ((total (firstn k its) + i) / 8)) with (s + Z.to_nat (i / 8))%nat by (unfold s; lia).
    rewrite <- (nth_slice b s (length d)), <- (nth_slice b' s (length d)) by lia. rewrite P1, P2. reflexivity. }
  unfold bit_at. rewrite E. reflexivity.
Qed.

Lemma same_outside : forall k n asg m i, nth_error its k = Some (Header n asg, m) -> 0 <= i < bits m ->
  (forall off w, place m "chksum" = Some (off, w) -> i < off \/ off + w <= i) ->
  bit_at b (total (firstn k its) + i) = bit_at b' (total (firstn k its) + i).
Proof.
  intros k n asg m i Hk Hi Hc. destruct (cp_all _ _ (form_covers _ _ _ (part_form _ _ _ Hk)) i Hi) as [fld [off [w [Hp Hin]]]].
  apply (same_field k n asg m fld off w); auto. intros _. destruct (String.eqb_spec fld "chksum") as [ -> |Hne]; [destruct (Hc _ _ Hp); lia|].
  unfold unset. apply String.eqb_neq in Hne. rewrite Hne. reflexivity.
Qed.

Lemma same_slice : forall j q asg m o n, nth_error its j = Some (Header q asg, m) -> 8 * Z.of_nat (o + n) <= bits m ->
  (forall off w, place m "chksum" = Some (off, w) -> 8 * Z.of_nat (o + n) <= off \/ off + w <= 8 * Z.of_nat o) ->
  slice b (Z.to_nat (begins its j) + o) n = slice b' (Z.to_nat (begins its j) + o) n.
Proof.
  intros j q asg m o n Hj Hb Hc. destruct same_bytes as [B1 B2]. apply slice_bits; auto; [apply same_length|]. intros i Hi.
  destruct (begins_bits its j HW) as [S1 [S2 S3]]. replace i with (total (firstn j its) + (i - total (firstn j its))) by lia.
  apply (same_outside j q asg m); auto; [lia|]. intros off w Hp. destruct (Hc _ _ Hp); lia.
Qed.

Lemma ip_named : forall j n, nth_error (names_of its) j = Some n -> In n ["ipv4"; "ipv6"]%string -> exists asg m, nth_error its j = Some (Header n asg, m) /\ form (Header n asg) m.
Proof.
  intros j n H Hin. destruct (names_nth _ _ _ H) as [[p m] [E H0]]. cbn [fst] in H0. clear H. rename H0 into H.
  destruct p as [q asg|ps|num ps|ps]; cbn [part_name] in H; [|exfalso; subst n; cbn in Hin; intuition discriminate..]. subst q. exists asg, m. split; [auto|eapply part_form; eauto].
Qed.

Lemma same_pseudo6 : forall j proto len, nth_error (names_of its) j = Some "ipv6"%string -> pseudo_header6 b (Z.to_nat (begins its j)) proto len = pseudo_header6 b' (Z.to_nat (begins its j)) proto len.
Proof.
  intros j proto len H. destruct (ip_named _ _ H ltac:(cbn; auto)) as [asg [m [Hj HF]]]. destruct (ip_form _ _ _ HF) as [_ K]. destruct (K eq_refl) as [K1 K2].
  unfold pseudo_header6. f_equal; [|f_equal]; apply (same_slice j "ipv6" asg m); auto; try (rewrite K1; lia); intros off w HP; rewrite K2 in HP; discriminate.
Qed.

Lemma same_pseudo : forall k proto, pseudo_before its b k proto = pseudo_before its b' k proto.
Proof.
  intros [|j] proto; [reflexivity|]. cbn [pseudo_before]. destruct (nth_error (names_of its) j) as [n|] eqn:Hj; [|reflexivity].
  destruct (String.eqb_spec n "ipv4") as [->|_].
  - destruct (ip_named _ _ Hj ltac:(cbn; auto)) as [asg [m [Hi HF]]]. destruct (ip_form _ _ _ HF) as [K _]. destruct (K eq_refl) as [K1 K2].
    f_equal. unfold pseudo_header4. f_equal; [|f_equal]; apply (same_slice j "ipv4" asg m); auto; try (rewrite K1; lia); intros off w HP; rewrite K2 in HP; apply some_inj in HP; apply pair_inj in HP; lia.
  - destruct (String.eqb_spec n "ipv6") as [->|_]; [|reflexivity]. rewrite same_pseudo6; auto.
Qed.

Lemma same_summed : forall k n asg m, nth_error its k = Some (Header n asg, m) ->
  (forall i, total (firstn (S k) its) <= i -> bit_at b i = bit_at b' i) ->
  forall off w, place m "chksum" = Some (off, w) -> summed_over its b k n = summed_over its b' k n.
Proof.
  intros k n asg m Hk Hrest off w Hp. destruct same_bytes as [B1 B2]. destruct (begins_bits its k HW) as [S1 [S2 S3]].
  pose proof (form_covers _ _ _ (part_form _ _ _ Hk)) as C. pose proof (total_next its k _ _ Hk) as EN.
  assert (G : forall o l, off = 8 * Z.of_nat o -> w = 16 -> blank o (slice b (Z.to_nat (begins its k)) l) = blank o (slice b' (Z.to_nat (begins its k)) l)).
  { intros o l Eo Ew. apply blank_bits; auto; [apply same_length|]. intros i Hi Hout.
    destruct (Z.ltb_spec i (total (firstn (S k) its))) as [Hl|Hl]; [|apply Hrest; auto].
    replace i with (total (firstn k its) + (i - total (firstn k its))) by lia. apply (same_outside k n asg m); auto; [lia|]. intros o2 w2 Hp2. assert (o2 = off /\ w2 = w) by (split; congruence). lia. }
  destruct (cp_sum _ _ C off w Hp) as [Ew HS]. unfold summed_over, rest_from.
  destruct HS as [[E Eo]|[[E Eo]|[[E Eo]|[E Eo]]]].
  - subst n. cbn [String.eqb Ascii.eqb Bool.eqb]. f_equal. apply (G 10%nat); [lia|auto].
  - subst n. cbn [String.eqb Ascii.eqb Bool.eqb]. rewrite (same_pseudo k 17), (G 6%nat) by (auto; lia). reflexivity.
  - subst n. cbn [String.eqb Ascii.eqb Bool.eqb]. rewrite (same_pseudo k 6), (G 16%nat) by (auto; lia). reflexivity.
  - cbn [In] in E. rewrite (same_pseudo k 58), (G 2%nat) by (auto; lia). destruct E as [E|[E|[E|[]]]]; subst n; cbn [String.eqb Ascii.eqb Bool.eqb]; auto.
    destruct (first_ipv6 its k) as [j|] eqn:Ej; [|reflexivity]. destruct (first_ipv6_spec _ _ _ Ej) as [_ [J _]]. cbn [option_map]. rewrite (same_pseudo6 j) by auto. reflexivity.
Qed.

Lemma same_tail : forall i, total its <= i -> bit_at b i = bit_at b' i.
Proof.
  intros i Hi. destruct (total_ok its HW) as [H1 H2]. unfold bit_at. rewrite (sp_rest _ _ F), (sp_rest _ _ F') by lia. reflexivity.
Qed.

Lemma same_all : forall d k, (k + d = length its)%nat -> forall i, total (firstn k its) <= i -> bit_at b i = bit_at b' i.
Proof.
  induction d as [|d IH]; intros k Hk i Hi.
  - rewrite firstn_all2 in Hi by lia. apply same_tail. auto.
  - destruct (nth_error its k) as [[p m]|] eqn:Hp; [|apply nth_error_None in Hp; lia].
    specialize (IH (S k) ltac:(lia)). pose proof (total_next its k p m Hp) as EN.
    destruct (Z.ltb_spec i (total (firstn (S k) its))) as [Hl|Hl]; [|apply IH; auto].
    replace i with (total (firstn k its) + (i - total (firstn k its))) by lia. set (i2 := i - total (firstn k its)). assert (Hi2 : 0 <= i2 < bits m) by (unfold i2; lia).
    pose proof (part_form _ _ _ Hp) as HF.
    assert (R : forall d0, raw_bytes p d0 -> bits m = 8 * Z.of_nat (length d0) -> bit_at b (total (firstn k its) + i2) = bit_at b' (total (firstn k its) + i2)) by (intros d0 R1 R2; eapply same_raw; eauto; lia).
    destruct p as [n asg|ps|num ps|ps]; [|inversion HF; subst; eapply R; [eassumption|unfold bits; cbn [fold_right snd]; lia]..].
    destruct (cp_all _ _ (form_covers _ _ _ HF) i2 Hi2) as [fld [off [w [HP Hin]]]].
    apply (same_field k n asg m fld off w); auto. intros _. unfold unset.
    destruct (String.eqb_spec fld "chksum") as [ -> |_]; [|reflexivity]. rewrite (same_summed k n asg m Hp IH off w HP). reflexivity.
Qed.

Lemma spelled_one : b = b'.
Proof.
  destruct same_bytes as [B1 B2]. apply (nth_ext _ _ 0 0); [apply same_length|]. intros i _. apply nth_bits; auto. intros j Hj.
  apply (same_all (length its) 0%nat); [lia|]. cbn [firstn total fold_right]. lia.
Qed.
End Two.

(** *** From the words *)
Lemma parts_spelled : forall its, Forall well_put its -> addressed its -> separate its -> (length (spoken its) <= 100)%nat -> total its <= 8 * 130000 ->
  exists f f' b, argc_frame (spoken its) = Ret (Some (length (spoken its), f)) /\ serialised (spoken its) f f' b /\ fr_has_mask f = false /\ spelled its b.
Proof.
  intros its HW HA HS HL HT. destruct (parts_serialised its HW HA HS HL HT) as [hs [f' [b [HM [H1 H2]]]]]. exists (MkFrame hs 0 false), f', b.
  split; [auto|]. split; [auto|]. split; [reflexivity|]. eapply emitted_spelled; eauto.
Qed.

Lemma heads_name : forallb (fun w => negb (String.eqb w "name")) heads = true.
Proof. vm_compute. reflexivity. Qed.

Lemma spoken_head : forall its w r, Forall well_put its -> spoken its = w :: r -> In w heads.
Proof.
  intros [|[p m] its] w r HW H; [discriminate|]. destruct (Forall_inv HW) as [HF _]. pose proof (part_head _ _ HF) as K. cbn [fst snd] in *.
  unfold spoken in H. cbn [flat_map fst] in H. destruct p; cbn [part_words part_name app] in *; congruence.
Qed.

Lemma spoken_nil : forall its, its <> [] -> spoken its <> [].
Proof. intros [|[p m] its] H; [congruence|]. unfold spoken. cbn [flat_map fst]. destruct p; discriminate. Qed.

Lemma words_printed : forall ws e f f' b, ws <> [] -> (forall w r, ws = w :: r -> String.eqb w "name" = false) ->
  argc_frame ws = Ret (Some (length ws, f)) -> serialised ws f f' b -> fr_has_mask f = false ->
  argc_cmds ("hex"%string :: ws) e = Ret (0, [EvHex b None]).
Proof.
  intros ws e f f' b Hn Hh HA [_ [_ HF]] HM.
  assert (HM' : fr_has_mask f' = false). { apply frame_to_buf_inv in HF. destruct HF as [_ [_ [HF _]]]. congruence. }
  unfold argc_cmds, parse_cmds, CMD_MAX.
  destruct ws as [|w r]; [congruence|]. pose proof (Hh _ _ eq_refl) as HN.
  assert (HC : argc_cmd ("hex"%string :: w :: r) = Ret (COk (S (length (w :: r))) (MkCmd CT_hex None None (Some f') (Some b) None false 0))).
  { unfold argc_cmd. change (cmd_word "hex") with (Some CT_hex). cbv iota.
    assert (HX : cmd_frame CT_hex None None 0 1 (w :: r) = finish_cmd CT_hex None None 0 1 (w :: r)) by (unfold cmd_frame; rewrite HN; destruct r; reflexivity).
    rewrite HX. unfold finish_cmd. rewrite HA. cbn [bind length]. rewrite HF. cbn [bind]. rewrite HM'. reflexivity. }
  change 100%nat with (S (S 98)). cbn [argc_cmds_loop]. rewrite HC. cbn [bind skipn length]. rewrite skipn_all. destruct e as [o rds]. destruct rds; reflexivity.
Qed.

Lemma parts_printed : forall its e b, its <> [] -> Forall well_put its -> addressed its -> separate its -> (length (spoken its) <= 100)%nat -> total its <= 8 * 130000 ->
  (spelled its b <-> argc_cmds ("hex"%string :: spoken its) e = Ret (0, [EvHex b None])).
Proof.
  intros its e b Hn HW HA HS HL HT. destruct (parts_spelled its HW HA HS HL HT) as [f [f' [c [H1 [H2 [H3 HF]]]]]].
  rewrite (words_printed (spoken its) e f f' c); auto.
  - split; intros H.
    + rewrite (spelled_one its b c HW H HF). reflexivity.
    + apply ret_inj in H. apply pair_inj in H. destruct H as [_ H]. assert (c = b) by congruence. subst c. exact HF.
  - apply spoken_nil. auto.
  - intros w r E. pose proof heads_name as K. rewrite forallb_forall in K. specialize (K w (spoken_head _ _ _ HW E)). apply negb_true_iff in K. exact K.
Qed.

Lemma parts_command : forall its b, its <> [] -> Forall well_put its -> addressed its -> separate its -> (length (spoken its) <= 100)%nat -> total its <= 8 * 130000 ->
  (spelled its b <-> exists f, a_frame (spoken its) f b None).
Proof.
  intros its b Hn HW HA HS HL HT. destruct (parts_spelled its HW HA HS HL HT) as [f [f' [c [H1 [H2 [H3 HF]]]]]].
  assert (HC : a_frame (spoken its) f' c None).
  { split; [apply spoken_nil; auto|]. exists f. split; [exact H1|]. destruct H2 as [_ [_ H2]]. split; [exact H2|].
    assert (HM' : fr_has_mask f' = false). { apply frame_to_buf_inv in H2. destruct H2 as [_ [_ [H2 _]]]. congruence. } rewrite HM'. auto. }
  split.
  - intros H. exists f'. rewrite (spelled_one its b c HW H HF). exact HC.
  - intros [g [_ [g0 [G1 [G2 _]]]]]. destruct HC as [_ [f0 [G3 [G4 _]]]]. assert (g0 = f0) by congruence. subst g0. assert (c = b) by congruence. subst c. exact HF.
Qed.

(** The frames are as the help says (C77): the bits. *)

From Verif Require Import PTextIp PTextNum PTextHex PTextMac PTextAddr Frame PSer SpecParse PParse PMatch SpecFrame PFrame PInv PStep PArgs PSoft PFill PGroup PAll PSafe PAssign PField SpecOrigin POrigin PImage PSum PEmit SpecFill PCheck PCheck2 PLen PKeep PTwice PCoap PSegs PWords SpecLayout PLayout Cmd Exec SpecExec PCmd PPair PExec PReplay SpecWhole PWhole Report SpecReport SpecHelp PHelp SpecDoc PDoc.

Lemma bit_number : forall b p, number_at b p 1 = Z.b2z (bit_at b p).
Proof. intros b p. cbn [number_at]. change (Z.of_nat 0) with 0. rewrite Z.add_0_r. destruct (bit_at b p); reflexivity. Qed.

Lemma number_bit : forall b w p j, 0 <= j < Z.of_nat w -> bit_at b (p + j) = Z.testbit (number_at b p w) (Z.of_nat w - 1 - j).
Proof.
  intros b. induction w as [|w IH]; intros p j Hj; [lia|]. cbn [number_at]. set (c := bit_at b (p + Z.of_nat w)). replace (if c then 1 else 0) with (Z.b2z c) by (destruct c; reflexivity).
  destruct (Z.eq_dec j (Z.of_nat w)) as [->|Hne].
  - replace (Z.of_nat (S w) - 1 - Z.of_nat w) with 0 by lia. rewrite Z.testbit_0_r. reflexivity.
  - rewrite IH by lia. replace (Z.of_nat (S w) - 1 - j) with (Z.succ (Z.of_nat w - 1 - j)) by lia. rewrite Z.testbit_succ_r by lia. reflexivity.
Qed.

Lemma tail_bit : forall v w j, bytes_ok v -> 0 <= j < w -> w <= 8 * zlen v -> bit_at v (8 * zlen v - w + j) = Z.testbit (positional 256 v mod 2 ^ w) (w - 1 - j).
Proof.
  intros v w j Hv Hj Hw. pose proof (number_at_tail v (Z.to_nat w) Hv ltac:(lia)) as HN. rewrite Z2Nat.id in HN by lia.
  rewrite positional_be_val, <- HN. rewrite (number_bit v (Z.to_nat w)) by lia. f_equal; lia.
Qed.

Lemma mod_bit : forall x w i, 0 <= i < w -> Z.testbit (x mod 2 ^ w) i = Z.testbit x i.
Proof. intros. apply Z.mod_pow2_bits_low. lia. Qed.

Section Frame.
Context (hs : headers) (ps : list piece) (f' : frame) (b : list Z).
Context (Hw : Forall (fun p => exists t, helped p t) hs) (Hok : Forall piece_ok ps).
Context (HS : serialised (text hs ps) (MkFrame (stack_for hs ps) 0 false) f' b).

Lemma doc_sizes : map h_size (fr_stack f') = map h_size (stack_for hs ps).
Proof. destruct (sizes_after _ _ _ _ HS) as [_ E]. rewrite E. apply stack_regular. auto. Qed.

Lemma doc_start : forall k, start_of (fr_stack f') k = start_of (stack_for hs ps) k.
Proof. intros k. apply (start_same _ _ k doc_sizes). Qed.

Lemma doc_sum : sum_sizes (fr_stack f') = start_of (stack_for hs ps) (length hs) + Z.of_nat (length (payload ps)).
Proof.
  destruct (start_same _ _ 0%nat doc_sizes) as [_ E]. rewrite E. unfold start_of, stack_for. rewrite firstn_app, map_length, Nat.sub_diag. cbn [firstn]. rewrite app_nil_r. rewrite firstn_all2 by (rewrite map_length; lia). rewrite sum_sizes_app, payload_size. auto.
Qed.

Lemma doc_wf : Forall well_formed (fr_stack f').
Proof. destruct HS as [[n HA] [HR HF]]. eapply accepted_well_formed; eauto. Qed.

Lemma doc_start_pos : 0 <= start_of (stack_for hs ps) (length hs).
Proof.
  rewrite <- doc_start. unfold start_of. rewrite sum_sizes_stack. apply stack_size_nonneg. pose proof doc_wf as WF. rewrite Forall_forall in *. intros x Hx. apply well_formed_wk. apply WF. rewrite <- (firstn_skipn (length hs) (fr_stack f')). apply in_or_app. auto.
Qed.

Lemma doc_payload : slice b (Z.to_nat (start_of (stack_for hs ps) (length hs))) (length (payload ps)) = payload ps.
Proof.
  pose proof doc_sum as HSUM. pose proof doc_start_pos as H0. pose proof (doc_start (length hs)) as Z1.
  destruct HS as [HA [HR HF]]. pose proof (emitted_length _ _ _ HF) as HL. pose proof (emitted_bytes _ _ _ HF) as HO. apply is_byte_bytes in HO.
  destruct ps as [|q ps']; [cbn [payload map concat length]; unfold slice; reflexivity|].
  assert (Hk : nth_error (fr_stack (MkFrame (stack_for hs (q :: ps')) 0 false)) (length hs) = Some (raw (payload (q :: ps')))).
  { cbn [fr_stack]. unfold stack_for. rewrite nth_error_app2; rewrite map_length; [rewrite Nat.sub_diag; reflexivity|auto]. }
  pose proof (pieces_bytes (q :: ps') Hok) as Hv. set (v := payload (q :: ps')) in *.
  destruct (serialised_emitting _ _ _ _ _ _ (conj HA (conj HR HF)) Hk) as [t [h' E]].
  assert (t = HDR_PAYLOAD) by (eapply emitting_name; [exact E|reflexivity|vm_compute; reflexivity]). subst t.
  pose proof (e_run _ _ _ _ _ _ _ E) as RUN. change (h_fill HDR_PAYLOAD) with FL_none in RUN. cbn [run_fill] in RUN. apply ret_inj in RUN. apply mid_inj in RUN. subst h'.
  destruct (Nat.eq_dec (length v) 0) as [Ev|Ev].
  { rewrite Ev. destruct v; [unfold slice; reflexivity|discriminate]. }
  set (fl := MkField "hex" false (zlen v * 8) 0 None (Some v) FP_default).
  assert (LONE : lone (raw v) 0 fl). { split; [reflexivity|]. intros j g Hj Hg. destruct j as [|j]; [congruence|]. cbn in Hg. destruct j; discriminate. }
  assert (WI : within (raw v) fl). { unfold within. cbn [f_off f_width fl]. change (h_size (raw v)) with (zlen v). pose proof (zlen_nonneg _ v). lia. }
  pose proof (emitted_lone _ _ _ _ _ _ _ HF (e_wf _ _ _ _ _ _ _ E) (e_dst _ _ _ _ _ _ _ E) LONE WI) as HN.
  change (field_data fl) with (Some v) in HN. cbn [f_off f_width fl] in HN. rewrite Z.add_0_r, Z1 in HN. set (s0 := start_of (stack_for hs (q :: ps')) (length hs)) in *.
  replace (8 * s0) with (8 * Z.of_nat (Z.to_nat s0)) in HN by lia. replace (Z.to_nat (zlen v * 8)) with (8 * length v)%nat in HN by (unfold zlen; lia). rewrite number_slice in HN; [|auto|lia].
  apply positional_inj; auto; [apply slice_ok; auto|unfold slice; rewrite firstn_length, skipn_length; lia|]. rewrite HN. apply Z.mod_small.
  pose proof (positional_bytes v Hv) as PB. replace (256 ^ Z.of_nat (length v)) with (2 ^ (zlen v * 8)) in PB; [exact PB|]. rewrite Z.mul_comm, Z.pow_mul_r by (try apply zlen_nonneg; lia). reflexivity.
Qed.

Lemma doc_header : forall k p, nth_error hs k = Some p -> nth_error (stack_for hs ps) k = Some (hdr_for p).
Proof. intros k p Hk. unfold stack_for. rewrite nth_error_app1; [rewrite nth_error_map, Hk; auto|rewrite map_length; apply nth_error_Some; congruence]. Qed.

(** The headers of the switches are not touched when the frame is put together. *)
Lemma doc_untouched : forall k p t, nth_error hs k = Some p -> helped p t -> h_fill t = FL_none -> nth_error (fr_stack f') k = Some (hdr_for p).
Proof.
  intros k p t Hk HT HFL. destruct (serialised_emitting _ _ _ _ _ _ HS (doc_header k p Hk)) as [t' [h' E]]. destruct (hdr_for_helped _ _ HT) as [_ [EN _]].
  assert (t' = t) by (eapply emitting_name; [exact E|exact EN|rewrite <- (hp_name _ _ HT); apply (hp_static _ _ HT)]). subst t'.
  pose proof (e_run _ _ _ _ _ _ _ E) as RUN. rewrite HFL in RUN. cbn [run_fill] in RUN. apply ret_inj in RUN. apply mid_inj in RUN. rewrite <- RUN in E. apply (e_dst _ _ _ _ _ _ _ E).
Qed.

Lemma find_index : forall t fld f, find_field t fld = Some f -> exists j, nth_error (h_fields t) j = Some f.
Proof. intros t fld f H. apply field_in in H. apply In_nth_error. apply H. Qed.

Lemma data_of : forall p t j g g', helped p t -> nth_error (h_fields t) j = Some g -> nth_error (h_fields (hdr_for p)) j = Some g' -> field_data g' <> None ->
  (is_given p (f_name g) /\ find_field t (f_name g) = Some g) \/ f_def g <> None.
Proof.
  intros p t j g g' HT Hj Hj' HD. destruct (field_for p t j g HT Hj) as [x [X1 [X2 [X3 [X4 [X5 [X6 X7]]]]]]]. assert (x = g') by congruence. subst x.
  unfold field_data in HD. destruct (f_val g') as [v|] eqn:Ev; [|right; rewrite <- X5; exact HD]. left. unfold is_given.
  destruct (last_given (snd p) (f_name g)) as [s|] eqn:Eg; [|exfalso; assert (Some v = None) by (apply X7; auto); discriminate]. split; [discriminate|].
  destruct (find_field t (f_name g)) as [y|] eqn:Ef.
  - destruct (find_index _ _ _ Ef) as [i Hi]. destruct (Nat.eq_dec i j) as [->|Hne]; [congruence|]. exfalso. assert (E : Some v = None); [|discriminate]. apply X7. right. intros E. apply some_inj in E. subst y.
    destruct (s_distinct _ (hp_static _ _ HT) i j g g Hi Hj Hne) as [K _]. apply K. reflexivity.
  - exfalso. assert (Some v = None) by (apply X7; right; discriminate). discriminate.
Qed.

Lemma doc_within : forall p t j f, helped p t -> nth_error (h_fields t) j = Some f -> forall f1, f_off f1 = f_off f -> f_width f1 = f_width f -> within (hdr_for p) f1.
Proof.
  intros p t j f HT Hj f1 E1 E2. destruct (hdr_for_helped _ _ HT) as [_ [_ [ES _]]]. destruct (s_fields _ (hp_static _ _ HT) f (nth_error_In _ _ Hj)) as [_ [_ [_ K]]]. unfold within. rewrite E1, E2, ES. lia.
Qed.

(** A field of such a header that no given field disturbs. *)
Lemma switch_field : forall k p t fld f, nth_error hs k = Some p -> helped p t -> h_fill t = FL_none -> find_field t fld = Some f -> undisturbed p fld (f_off f) (f_width f) ->
  exists f1, f_def f1 = f_def f /\ (forall s, last_given (snd p) fld = Some s -> exists v, f_val f1 = Some v /\ forall x, means (fst p) fld (f_width f) s x -> positional 256 v mod 2 ^ f_width f = x mod 2 ^ f_width f) /\
    (last_given (snd p) fld = None -> f_val f1 = None) /\
    number_at b (8 * start_of (stack_for hs ps) k + f_off f) (Z.to_nat (f_width f)) = match field_data f1 with Some v => positional 256 v mod 2 ^ f_width f | None => 0 end.
Proof.
  intros k p t fld f Hk HT HFL HF HU. destruct (field_in _ _ _ HF) as [Hin Hn]. destruct (find_index _ _ _ HF) as [j Hj]. pose proof (hp_static _ _ HT) as HST.
  destruct (field_for p t j f HT Hj) as [f1 [X1 [X2 [X3 [X4 [X5 [X6 X7]]]]]]]. rewrite Hn in *. exists f1. split; [exact X5|]. split; [exact (X6 HF)|]. split; [intros HG; apply X7; auto|].
  rewrite <- X3, <- X4, <- doc_start. destruct HS as [_ [_ HFB]]. eapply emitted_field; [exact HFB|apply doc_wf|eapply doc_untouched; eauto|exact X1|eapply doc_within; eauto|].
  intros i g' Hne Hg' HD HO.
  assert (Hi : exists g, nth_error (h_fields t) i = Some g).
  { destruct (hdr_for_helped _ _ HT) as [EH _]. destruct (fold_like (snd p) t t (like_refl t)) as [_ HL]. apply Forall2_length in HL. rewrite <- EH in HL. destruct (nth_error (h_fields t) i) as [g|] eqn:E; [eauto|]. apply nth_error_None in E. assert (i < length (h_fields (hdr_for p)))%nat by (apply nth_error_Some; congruence). lia. }
  destruct Hi as [g Hi]. destruct (field_for p t i g HT Hi) as [g1 [Y1 [Y2 [Y3 [Y4 _]]]]]. assert (g1 = g') by congruence. subst g1.
  assert (HO' : overlap f g) by (unfold overlap in *; rewrite X3, X4, Y3, Y4 in HO; exact HO).
  destruct (s_distinct _ HST j i f g Hj Hi (fun E => Hne (eq_sym E))) as [D1 D2].
  destruct (data_of p t i g g' HT Hi Hg' HD) as [[HG HFg]|Hdef]; [|apply D2; auto].
  apply (HU (f_name g) (f_off g) (f_width g)).
  - intros E. rewrite E in HFg. assert (g = f) by congruence. subst g. apply D1. reflexivity.
  - rewrite <- (hp_name _ _ HT). apply documented_static; auto. exists g. auto.
  - exact HO'.
  - exact HG.
Qed.

(** A field of a header of one of the formats. *)
Lemma format_field : forall k p t fld f m, nth_error hs k = Some p -> helped p t -> In (h_name t, m) formats -> find_field t fld = Some f -> place m fld = Some (f_off f, f_width f) ->
  forall s x, last_given (snd p) fld = Some s -> means (fst p) fld (f_width f) s x -> number_at b (8 * start_of (stack_for hs ps) k + f_off f) (Z.to_nat (f_width f)) = x mod 2 ^ f_width f.
Proof.
  intros k p t fld f m Hk HT Hm HF HP s x HG HM. destruct (field_in _ _ _ HF) as [Hin Hn]. destruct (find_index _ _ _ HF) as [j Hj]. pose proof (hp_static _ _ HT) as HST.
  destruct (hdr_for_helped _ _ HT) as [EH [EN _]].
  assert (HFO : format_of (hdr_for p) = Some m).
  { pose proof (s_plain _ HST) as HN. rewrite (hp_name _ _ HT) in HN, Hm. cbn [existsb] in HN. rewrite !orb_false_iff in HN. destruct HN as [N1 [N2 [N3 [N4 [N5 _]]]]]. unfold format_of. rewrite EN, N1, N2, N3, N4. rewrite (find_format _ _ Hm). reflexivity. }
  assert (Hne : fld <> "-"%string) by (rewrite <- Hn; apply (s_fields _ HST f Hin)).
  destruct (layout _ _ _ _ _ _ fld (f_off f) (f_width f) HS (doc_header k p Hk)) as [L1 _]; [split; [auto|exists m; auto]|].
  destruct (assigned_find (snd p) t fld f HF) as [g [G1 G2]].
  destruct (field_for p t j f HT Hj) as [f1 [X1 [X2 [X3 [X4 [X5 [X6 _]]]]]]]. rewrite Hn in *. destruct (X6 HF s HG) as [v [V1 V2]].
  assert (HV : value_of (hdr_for p) fld = Some v).
  { unfold value_of. rewrite EH in *. rewrite G1. rewrite G2, HG. 
    assert (FN : f_val f1 = text_val f s); [|congruence].
    destruct (fold_assign_nth (snd p) t j f Hj) as [f2 [K1 [_ [_ [K6 _]]]]]. assert (f2 = f1) by congruence. subst f2. rewrite Hn in K6. rewrite HG in K6. apply K6.
    unfold find_field in HF. destruct (POrigin.find_first _ _ _ _ HF) as [j' [J1 [_ J3]]]. destruct (Nat.eq_dec j j') as [<-|Hne'].
    - intros i y Hi Hy En. specialize (J3 i y Hi Hy). cbv beta in J3. rewrite En, String.eqb_refl in J3. discriminate.
    - destruct (s_distinct _ HST j j' f f Hj J1 Hne') as [Hr _]. exfalso. apply Hr. reflexivity. }
  specialize (L1 v HV). unfold field_at in L1. rewrite doc_start in L1. rewrite L1. apply V2. auto.
Qed.

Lemma doc_given : forall k p t fld f s x, nth_error hs k = Some p -> helped p t -> find_field t fld = Some f -> undisturbed p fld (f_off f) (f_width f) ->
  last_given (snd p) fld = Some s -> means (fst p) fld (f_width f) s x -> number_at b (8 * start_of (stack_for hs ps) k + f_off f) (Z.to_nat (f_width f)) = x mod 2 ^ f_width f.
Proof.
  intros k p t fld f s x Hk HT HF HU HG HM. destruct (field_in _ _ _ HF) as [Hin Hn]. destruct (s_kind _ (hp_static _ _ HT)) as [[K1 [K2 K3]]|[K1 [K2 [K3 [m [M1 M2]]]]]].
  - destruct (switch_field k p t fld f Hk HT K2 HF HU) as [f1 [F1 [F2 [F3 F4]]]]. destruct (F2 s HG) as [v [V1 V2]]. rewrite F4. unfold field_data. rewrite V1. auto.
  - destruct (M2 f Hin) as [g [G1 G2]]. rewrite Hn in *. assert (g = f) by congruence. subst g. eapply format_field; eauto.
Qed.

Lemma doc_default : forall k p t fld f, nth_error hs k = Some p -> helped p t -> In (h_name t) switch_headers -> find_field t fld = Some f -> undisturbed p fld (f_off f) (f_width f) ->
  last_given (snd p) fld = None -> number_at b (8 * start_of (stack_for hs ps) k + f_off f) (Z.to_nat (f_width f)) = def_num f.
Proof.
  intros k p t fld f Hk HT HSW HF HU HG. destruct (s_kind _ (hp_static _ _ HT)) as [[K1 [K2 K3]]|[K1 _]]; [|contradiction].
  destruct (switch_field k p t fld f Hk HT K2 HF HU) as [f1 [F1 [F2 [F3 F4]]]]. rewrite F4. unfold field_data, def_num. rewrite (F3 HG), F1. reflexivity.
Qed.

Lemma find_last : forall A (P : A -> bool) l x, find P (rev l) = Some x -> exists j, nth_error l j = Some x /\ P x = true /\ forall i y, (j < i)%nat -> nth_error l i = Some y -> P y = false.
Proof.
  intros A P l x. induction l as [|a l IH] using rev_ind; intros H; [discriminate|]. rewrite rev_app_distr in H. cbn [rev app find] in H. destruct (P a) eqn:E.
  - apply some_inj in H. subst a. exists (length l). split; [rewrite nth_error_app2 by auto; rewrite Nat.sub_diag; reflexivity|]. split; [auto|]. intros i y Hi Hy. assert (i < length (l ++ [x]))%nat by (apply nth_error_Some; congruence). rewrite app_length in *. cbn [length] in *. lia.
  - destruct (IH H) as [j [H1 [H2 H3]]]. exists j. assert (Hj : (j < length l)%nat) by (apply nth_error_Some; congruence). split; [rewrite nth_error_app1 by auto; auto|]. split; [auto|]. intros i y Hi Hy.
    destruct (Nat.lt_ge_cases i (length l)) as [Hl|Hl]; [rewrite nth_error_app1 in Hy by auto; eauto|]. rewrite nth_error_app2 in Hy by auto. destruct (i - length l)%nat as [|n] eqn:En; cbn in Hy; [congruence|destruct n; discriminate].
Qed.

Lemma doc_shared : forall k p t r s x i, nth_error hs k = Some p -> helped p t ->
  find (fun q => (snd (fst q) <=? i) && (i <? snd (fst q) + snd q) && is_some (last_given (snd p) (fst (fst q)))) (rev (map row (h_fields t))) = Some r ->
  documented (fst p) (fst (fst r)) (snd (fst r)) (snd r) -> last_given (snd p) (fst (fst r)) = Some s -> means (fst p) (fst (fst r)) (snd r) s x ->
  number_at b (8 * start_of (stack_for hs ps) k + i) 1 = Z.b2z (Z.testbit x (snd (fst r) + snd r - 1 - i)).
Proof.
  intros k p t r s x i Hk HT HL HD HG HM. pose proof (hp_static _ _ HT) as HST. rewrite <- (hp_name _ _ HT) in HD. apply documented_static in HD; auto. destruct HD as [f [HF [EO EW]]].
  destruct (field_in _ _ _ HF) as [Hin Hn]. destruct (find_last _ _ _ _ HL) as [j [J1 [J2 J3]]]. rewrite nth_error_map in J1. destruct (nth_error (h_fields t) j) as [f0|] eqn:Hj0; [|discriminate]. cbn [option_map] in J1. apply some_inj in J1.
  assert (Hj : nth_error (h_fields t) j = Some f).
  { destruct (find_index _ _ _ HF) as [j' Hj']. destruct (Nat.eq_dec j j') as [->|Hne]; [exact Hj'|]. destruct (s_distinct _ HST j j' f0 f Hj0 Hj' Hne) as [K _]. exfalso. apply K. rewrite J1. unfold row. destruct r as [[a b0] c]. cbn [fst snd] in *. congruence. }
  rewrite !andb_true_iff in J2. destruct J2 as [[I1 I2] _]. rewrite <- EO, <- EW in *. set (fld := fst (fst r)) in *. clearbody fld. clear EO EW J1 f0 Hj0 HL r. 
  destruct (s_fields _ HST f Hin) as [_ [_ [_ [W0 [W1 W2]]]]]. rewrite bit_number.
  assert (HL : forall i' g, (j < i')%nat -> nth_error (h_fields t) i' = Some g -> (f_off g <= i < f_off g + f_width g) -> last_given (snd p) (f_name g) = None).
  { intros i' g Hi Hg HI. assert (HR : nth_error (map row (h_fields t)) i' = Some (row g)) by (rewrite nth_error_map, Hg; auto). specialize (J3 i' (row g) Hi HR). cbv beta in J3. cbn [row fst snd] in J3. destruct (last_given (snd p) (f_name g)); [|auto]. cbn [is_some] in J3. lia. }
  destruct (s_kind _ HST) as [[K1 [K2 K3]]|[K1 [K2 [K3 _]]]].
  - destruct (field_for p t j f HT Hj) as [f1 [X1 [X2 [X3 [X4 [X5 [X6 X7]]]]]]]. rewrite Hn in *. destruct (X6 HF s HG) as [v [V1 V2]]. specialize (V2 x HM).
    pose proof (doc_untouched k p t Hk HT K2) as HK. pose proof doc_wf as WF. destruct (hdr_for_helped _ _ HT) as [EH [_ [ES _]]].
    pose proof HS as [_ [_ HFB]]. apply frame_to_buf_inv in HFB. destruct HFB as [_ [_ [_ [_ HC]]]]. destruct (stack_bits _ _ WF HC) as [HB _].
    rewrite <- doc_start. rewrite (HB k (hdr_for p) i HK) by lia.
    pose proof (firstn_nth_split _ _ _ _ X1) as Hsp. rewrite Hsp, hdr_bit_app. change (f1 :: skipn (S j) (h_fields (hdr_for p))) with ([f1] ++ skipn (S j) (h_fields (hdr_for p)))%list. rewrite hdr_bit_app.
    rewrite (hdr_bit_miss (skipn (S j) (h_fields (hdr_for p)))).
    2:{ intros g Hg. apply In_nth_error in Hg. destruct Hg as [n Hm].
        destruct (field_source false g) as [u|] eqn:Ev; [|auto]. right. intros HI.
        assert (Hm' : nth_error (h_fields (hdr_for p)) (S j + n) = Some g).
        { rewrite <- Hm. clear. revert j n. induction (h_fields (hdr_for p)) as [|x l IH]; intros j n.
          - cbn. destruct n; auto.
          - cbn [skipn plus nth_error]. destruct j; auto. }
        assert (Hi : exists g0, nth_error (h_fields t) (S j + n) = Some g0).
        { destruct (fold_like (snd p) t t (like_refl t)) as [_ HLk]. apply Forall2_length in HLk. rewrite <- EH in HLk. destruct (nth_error (h_fields t) (S j + n)) as [g0|] eqn:E; [eauto|]. apply nth_error_None in E. assert (S j + n < length (h_fields (hdr_for p)))%nat by (apply nth_error_Some; congruence). lia. }
        destruct Hi as [g0 Hi]. destruct (field_for p t _ g0 HT Hi) as [g1 [Y1 [Y2 [Y3 [Y4 _]]]]]. assert (g1 = g) by congruence. subst g1. rewrite Y3, Y4 in HI.
        assert (HD : field_data g <> None) by (rewrite <- field_data_source; congruence).
        destruct (data_of p t _ g0 g HT Hi Hm' HD) as [[HGi _]|Hdef].
        - apply HGi. apply (HL (S j + n)%nat); auto. lia.
        - destruct (s_distinct _ HST j (S j + n)%nat f g0 Hj Hi ltac:(lia)) as [_ D]. apply D; [auto|]. unfold overlap. lia. }
    unfold hdr_bit, field_bit. cbn [fold_left]. rewrite field_data_source. unfold field_data. rewrite V1, X3, X4. replace ((f_off f <=? i) && (i <? f_off f + f_width f)) with true by lia.
    rewrite Forall_forall in WF. destruct (WF _ (nth_error_In _ _ HK)) as [_ WFf]. destruct (WFf f1 (nth_error_In _ _ X1)) as [_ WV]. destruct (WV v) as [E0|[_ [Wl [Wb _]]]]; [unfold field_data; rewrite V1; auto|lia|].
    apply is_byte_bytes in Wb. rewrite X4 in Wl. replace (i - f_off f + (8 * zlen v - f_width f)) with (8 * zlen v - f_width f + (i - f_off f)) by lia.
    rewrite tail_bit by (auto; unfold zlen in *; lia). rewrite V2. rewrite mod_bit by lia. f_equal. f_equal. lia.
  - assert (HV : undisturbed p fld (f_off f) (f_width f) -> number_at b (8 * start_of (stack_for hs ps) k + f_off f) (Z.to_nat (f_width f)) = x mod 2 ^ f_width f) by (intros; eapply doc_given; eauto).
    replace (8 * start_of (stack_for hs ps) k + i) with (8 * start_of (stack_for hs ps) k + f_off f + (i - f_off f)) by lia. rewrite (number_bit b (Z.to_nat (f_width f))) by lia. rewrite HV.
    + rewrite mod_bit by lia. do 2 f_equal. lia.
    + intros fld' off' w' Hne HD HSh _. rewrite <- (hp_name _ _ HT) in HD. apply documented_static in HD; auto. destruct HD as [g [G1 [<- <-]]]. destruct (find_index _ _ _ G1) as [i' Hi'].
      apply (K2 j i' f g Hj Hi'); [|exact HSh]. intros E. subst i'. assert (g = f) by congruence. subst g. apply field_in in G1. destruct G1 as [_ G1]. congruence.
Qed.

Lemma line_static : forall t fld v, static t -> help_announces (h_name t) fld v -> exists l, line_of t fld = Some l /\ announced l = Some v.
Proof. intros t fld v HST [ls [l [H1 [H2 H3]]]]. destruct (help_lines_static t HST) as [_ K]. apply K in H1. subst ls. exists l. auto. Qed.

Lemma doc_announced : forall k p t fld f v x, nth_error hs k = Some p -> helped p t -> find_field t fld = Some f -> undisturbed p fld (f_off f) (f_width f) ->
  last_given (snd p) fld = None -> help_announces (fst p) fld v -> value_text ((f_width f + 7) / 8) v x -> (fst p, fld) <> ("ifh-la", "v-rsv1")%string ->
  number_at b (8 * start_of (stack_for hs ps) k + f_off f) (Z.to_nat (f_width f)) = x mod 2 ^ f_width f.
Proof.
  intros k p t fld f v x Hk HT HF HU HG HA HV Hne. pose proof (hp_static _ _ HT) as HST. destruct (field_in _ _ _ HF) as [Hin Hn]. rewrite <- (hp_name _ _ HT) in HA. destruct (line_static t fld v HST HA) as [l [L1 L2]].
  destruct (s_kind _ HST) as [[K1 [K2 K3]]|[K1 [K2 [K3 _]]]].
  - rewrite (doc_default k p t fld f Hk HT K1 HF HU HG). specialize (K3 f Hin). unfold announced_fits in K3. rewrite Hn, HF, L1, L2, andb_true_iff in K3. destruct K3 as [K3 _]. apply orb_true_iff in K3. destruct K3 as [K3|K3].
    { exfalso. apply Hne. rewrite andb_true_iff, !String.eqb_eq in K3. destruct K3 as [A B]. rewrite <- (hp_name _ _ HT). congruence. }
    destruct (s_fields _ HST f Hin) as [_ [_ [_ [_ [W _]]]]]. destruct (read_value ((f_width f + 7) / 8) v x ltac:(lia) HV) as [u [U1 U2]]. unfold reads_as in K3. rewrite U1 in K3. apply Z.eqb_eq in K3. rewrite <- K3, U2.
    change 256 with (2 ^ 8). rewrite <- Z.pow_mul_r by lia. apply mod_mod_pow. lia.
  - exfalso. specialize (K3 f Hin). unfold silent_help in K3. rewrite Hn, L1, L2 in K3. discriminate.
Qed.

Lemma known_read : forall k v, existsb (fun q => (fst q =? k) && String.eqb (snd q) v) known_defaults = true -> exists x, value_text k v x.
Proof.
  intros k v H. apply existsb_exists in H. destruct H as [q [Hq E]]. rewrite andb_true_iff in E. destruct E as [E1 E2]. apply Z.eqb_eq in E1. apply String.eqb_eq in E2. subst k v.
  assert (HX : forall body ds, digits_of 16 body ds -> number ("0x" ++ body) (positional 16 ds)) by (intros body ds HD; exists 16, body; split; [unfold is_radix; cbn; tauto|split; [reflexivity|exists ds; auto]]).
  assert (H1 : number "1" 1) by (exists 10, "1"%string; split; [unfold is_radix; cbn; tauto|split; [reflexivity|exists [1]; split; [repeat constructor|reflexivity]]]).
  cbn [known_defaults In] in Hq. repeat (destruct Hq as [<-|Hq]); [| | | | | | | |destruct Hq]; cbn [fst snd].
  - exists (positional 16 [8;8;8;0]). apply vt_number; [lia|apply (HX "8880"%string); repeat constructor|cbn; lia].
  - exists (positional 16 [0;0;0;10]). apply vt_number; [lia|apply (HX "000a"%string); repeat constructor|cbn; lia].
  - exists (positional 16 [0;0;0;9]). apply vt_number; [lia|apply (HX "0009"%string); repeat constructor|cbn; lia].
  - exists (positional 16 [8;1;0;0]). apply vt_number; [lia|apply (HX "8100"%string); repeat constructor|cbn; lia].
  - exists 1. apply vt_number; [lia|exact H1|lia].
  - exists 1. apply vt_number; [lia|exact H1|lia].
  - exists (positional 16 [15;15]). apply vt_number; [lia|apply (HX "ff"%string); repeat constructor|cbn; lia].
  - exists (positional 256 [255;255;255;255;255;255]). apply (vt_mac 6 ["ff"; "ff"; "ff"; "ff"; "ff"; "ff"]%string); [auto| |reflexivity|intros [r E]; discriminate].
    assert (HG : hex_group 2 "ff" 255) by (split; [cbn; lia|exists [15; 15]; split; [repeat constructor|reflexivity]]). repeat (apply Forall2_cons; [exact HG|]). apply Forall2_nil.
Qed.

Lemma doc_zero : forall k p t fld f, nth_error hs k = Some p -> helped p t -> find_field t fld = Some f -> undisturbed p fld (f_off f) (f_width f) ->
  last_given (snd p) fld = None -> In (fst p) switch_headers -> (forall v x, help_announces (fst p) fld v -> ~ value_text ((f_width f + 7) / 8) v x) ->
  number_at b (8 * start_of (stack_for hs ps) k + f_off f) (Z.to_nat (f_width f)) = 0.
Proof.
  intros k p t fld f Hk HT HF HU HG HSW HN. pose proof (hp_static _ _ HT) as HST. destruct (field_in _ _ _ HF) as [Hin Hn]. rewrite <- (hp_name _ _ HT) in HSW, HN.
  destruct (s_kind _ HST) as [[K1 [K2 K3]]|[K1 _]]; [|contradiction]. rewrite (doc_default k p t fld f Hk HT K1 HF HU HG). specialize (K3 f Hin). unfold announced_fits in K3. rewrite Hn, HF in K3.
  unfold def_num. destruct (f_def f) as [u|]; [|reflexivity]. exfalso. destruct (line_of t fld) as [l|] eqn:EL; [|discriminate]. rewrite andb_true_iff in K3. destruct K3 as [_ K3]. cbn [is_some negb orb] in K3. destruct (announced l) as [v|] eqn:EA; [|discriminate].
  destruct (known_read _ _ K3) as [x HX]. apply (HN v x); [|exact HX]. destruct (help_lines_static t HST) as [HH _]. exists (field_lines (hdr_help [t] 0 true)), l. auto.
Qed.
End Frame.

Lemma from_help_helped : forall hs, Forall from_help hs -> Forall (fun p => exists t, helped p t) hs.
Proof. intros hs H. eapply Forall_impl; [|exact H]. intros p. apply helped_all. Qed.

Lemma doc_frame : forall hs ps, Forall from_help hs -> unambiguous hs ps -> Forall piece_ok ps -> Z.of_nat (length (text hs ps)) <= 100 -> Z.of_nat (length (payload ps)) <= 134000000 ->
  exists f f' b, argc_frame (text hs ps) = Ret (Some (length (text hs ps), f)) /\ serialised (text hs ps) f f' b /\ fr_has_mask f = false /\ as_help_says hs ps b.
Proof.
  intros hs ps Hh HU Hok Hl Hp. pose proof (from_help_helped hs Hh) as Hw. pose proof (unambiguous_clear hs ps HU) as HC.
  destruct (helped_serialised hs ps Hw HC Hok Hl Hp) as [f' [b HS]]. exists (MkFrame (stack_for hs ps) 0 false), f', b.
  split; [apply helped_accepted; auto; unfold size_limit; lia|]. split; [exact HS|]. split; [reflexivity|].
  assert (HT : forall k p, nth_error hs k = Some p -> exists t, helped p t) by (intros k p Hk; rewrite Forall_forall in Hw; apply Hw; eapply nth_error_In; eauto).
  assert (HST : forall k p S, nth_error hs k = Some p -> starts_at hs k S -> S = 8 * start_of (stack_for hs ps) k) by (intros k p S Hk Hs; apply starts_static; auto; apply Nat.lt_le_incl; apply nth_error_Some; congruence).
  assert (HEN : forall S, starts_at hs (length hs) S -> S / 8 = start_of (stack_for hs ps) (length hs)) by (intros S Hs; rewrite (starts_static hs ps (length hs) S Hw (le_n _) Hs); lia).
  assert (HDO : forall p t fld off w, helped p t -> documented (fst p) fld off w -> exists f, find_field t fld = Some f /\ f_off f = off /\ f_width f = w) by (intros p t fld off w Ht HD; rewrite <- (hp_name _ _ Ht) in HD; apply documented_static in HD; [auto|apply Ht]).
  pose proof HS as [_ [_ HFB]]. pose proof (doc_sum hs ps f' b Hw HS) as HSUM. pose proof (doc_start_pos hs ps f' b Hw HS) as HPOS.
  constructor.
  - intros S Hs. rewrite (HEN S Hs). rewrite (emitted_length _ _ _ HFB). lia.
  - apply (emitted_bytes _ _ _ HFB).
  - intros k p S fld off w s x Hk Hs HD HN HG HM. destruct (HT k p Hk) as [t Ht]. rewrite (HST k p S Hk Hs). destruct (HDO p t fld off w Ht HD) as [f [F1 [<- <-]]]. eapply doc_given; eauto.
  - intros k p S rs r s x i Hk Hs HR HF HD HG HM. destruct (HT k p Hk) as [t Ht]. rewrite (HST k p S Hk Hs). rewrite <- (hp_name _ _ Ht) in HR. destruct (help_rows_static t (hp_static _ _ Ht)) as [_ K]. apply K in HR. subst rs. eapply doc_shared; eauto.
  - intros k p S fld off w v x Hk Hs HD HN HG HA HV Hne. destruct (HT k p Hk) as [t Ht]. rewrite (HST k p S Hk Hs). destruct (HDO p t fld off w Ht HD) as [f [F1 [<- <-]]]. eapply doc_announced; eauto.
  - intros k p S fld off w Hk Hs HD HN HG HSW HV. destruct (HT k p Hk) as [t Ht]. rewrite (HST k p S Hk Hs). destruct (HDO p t fld off w Ht HD) as [f [F1 [<- <-]]]. eapply doc_zero; eauto.
  - intros S Hs. rewrite (HEN S Hs). eapply doc_payload; eauto.
  - intros S i Hs Hi. rewrite (HEN S Hs) in Hi. destruct (Nat.lt_ge_cases i (length b)) as [Hlt|Hge]; [|apply nth_overflow; auto].
    eapply emitted_tail; [exact HFB|eapply doc_wf; eauto|]. rewrite HSUM. lia.
Qed.

Lemma doc_words : forall hs ps w r, Forall from_help hs -> text hs ps = w :: r -> String.eqb w "name" = false.
Proof.
  intros hs ps w r Hh E. destruct (helped_text hs ps w r (from_help_helped hs Hh) E) as [_ K]. cbn [existsb] in K. apply orb_false_iff in K. apply K.
Qed.

Lemma doc_hex : forall hs ps e f f' b, Forall from_help hs -> text hs ps <> [] ->
  argc_frame (text hs ps) = Ret (Some (length (text hs ps), f)) -> serialised (text hs ps) f f' b -> fr_has_mask f = false ->
  argc_cmds ("hex"%string :: text hs ps) e = Ret (0, [EvHex b None]).
Proof.
  intros hs ps e f f' b Hw Hn HA [_ [_ HF]] HM.
  assert (HM' : fr_has_mask f' = false). { apply frame_to_buf_inv in HF. destruct HF as [_ [_ [HF _]]]. congruence. }
  unfold argc_cmds, parse_cmds, CMD_MAX.
  destruct (text hs ps) as [|w r] eqn:Et; [congruence|]. pose proof (doc_words _ _ _ _ Hw Et) as HN.
  assert (HC : argc_cmd ("hex"%string :: w :: r) = Ret (COk (S (length (w :: r))) (MkCmd CT_hex None None (Some f') (Some b) None false 0))).
  { unfold argc_cmd. change (cmd_word "hex") with (Some CT_hex). cbv iota.
    assert (HX : cmd_frame CT_hex None None 0 1 (w :: r) = finish_cmd CT_hex None None 0 1 (w :: r)) by (unfold cmd_frame; rewrite HN; destruct r; reflexivity).
    rewrite HX. unfold finish_cmd. rewrite HA. cbn [bind length]. rewrite HF. cbn [bind]. rewrite HM'. reflexivity. }
  change 100%nat with (S (S 98)). cbn [argc_cmds_loop]. rewrite HC. cbn [bind skipn length]. rewrite skipn_all. destruct e as [o rds]. destruct rds; reflexivity.
Qed.

Lemma doc_printed : forall hs ps e, Forall from_help hs -> unambiguous hs ps -> Forall piece_ok ps -> text hs ps <> [] ->
  Z.of_nat (length (text hs ps)) <= 100 -> Z.of_nat (length (payload ps)) <= 134000000 ->
  exists b, as_help_says hs ps b /\ argc_cmds ("hex"%string :: text hs ps) e = Ret (0, [EvHex b None]).
Proof.
  intros hs ps e Hh HU Hok Hn Hl Hp. destruct (doc_frame hs ps Hh HU Hok Hl Hp) as [f [f' [b [HA [HS [HM HI]]]]]]. exists b. split; auto. eapply doc_hex; eauto.
Qed.

Lemma doc_command : forall hs ps, Forall from_help hs -> unambiguous hs ps -> Forall piece_ok ps -> text hs ps <> [] ->
  Z.of_nat (length (text hs ps)) <= 100 -> Z.of_nat (length (payload ps)) <= 134000000 ->
  exists f b, as_help_says hs ps b /\ a_frame (text hs ps) f b None.
Proof.
  intros hs ps Hh HU Hok Hn Hl Hp. destruct (doc_frame hs ps Hh HU Hok Hl Hp) as [f [f' [b [HA [HS [HM HI]]]]]]. exists f', b. split; auto. eapply text_command; eauto.
Qed.

Lemma help_readable : forall n, In n (listed_headers headers_help) -> ~ In n changing ->
  (exists rs, help_rows n rs /\ rs <> []) /\ (forall rs rs', help_rows n rs -> help_rows n rs' -> rs = rs') /\ exists B, header_ends n B /\ forall B', header_ends n B' -> B' = B.
Proof.
  intros n H1 H2. destruct (helped_all (n, [])) as [t Ht]; [split; [exact H1|split; [exact H2|intros fld s []]]|]. pose proof (hp_static _ _ Ht) as HS. pose proof (hp_name _ _ Ht) as HN. cbn [fst] in HN. subst n.
  destruct (help_rows_static t HS) as [A B]. split; [|split].
  - exists (map row (h_fields t)). split; [exact A|]. destruct (s_last _ HS) as [f [Hf _]]. destruct (h_fields t); [destruct Hf|discriminate].
  - intros rs rs' E1 E2. rewrite (B rs E1), (B rs' E2). auto.
  - exists (8 * h_size t). split; [apply header_ends_static; auto|]. intros B' HB. apply header_ends_static in HB; auto.
Qed.

Lemma starts_exist : forall hs k, Forall from_help hs -> exists S, starts_at hs k S.
Proof.
  intros hs k H. assert (H' : Forall from_help (firstn k hs)) by (rewrite Forall_forall in *; intros p Hp; apply H; rewrite <- (firstn_skipn k hs); apply in_or_app; auto).
  assert (E : exists Bs, Forall2 (fun p B => header_ends (fst p) B) (firstn k hs) Bs).
  { clear H. induction H' as [|p l Hp H IH]; [exists []; constructor|]. destruct IH as [Bs IH]. destruct Hp as [P1 [P2 _]]. destruct (help_readable _ P1 P2) as [_ [_ [B [HB _]]]]. exists (B :: Bs). constructor; auto. }
  destruct E as [Bs E]. exists (fold_right Z.add 0 Bs), Bs. auto.
Qed.

(** For examples. *)
Definition in_help (n : string) (P : hdr -> bool) : bool := negb (existsb (String.eqb n) changing) && match find_tmpl n with Some t => P t | None => false end.

Lemma in_help_static : forall n P, in_help n P = true -> exists t, static t /\ h_name t = n /\ P t = true.
Proof.
  intros n P H. unfold in_help in H. rewrite andb_true_iff in H. destruct H as [Hc H]. apply negb_true_iff in Hc. destruct (find_tmpl n) as [t|] eqn:Hn; [|discriminate]. destruct (find_tmpl_in _ _ Hn) as [Ht <-]. exists t. split; [|auto].
  apply static_all; auto. rewrite <- in_names. congruence.
Qed.

Lemma documented_at : forall n fld off w, in_help n (fun t => match find_field t fld with Some f => (f_off f =? off) && (f_width f =? w) | None => false end) = true -> documented n fld off w.
Proof.
  intros n fld off w H. destruct (in_help_static _ _ H) as [t [HS [<- K]]]. apply documented_static; [auto|]. destruct (find_field t fld) as [f|]; [|discriminate]. exists f. split; auto. lia.
Qed.

Lemma not_documented : forall n fld, in_help n (fun t => negb (is_some (find_field t fld))) = true -> ~ exists off w, documented n fld off w.
Proof.
  intros n fld H [off [w HD]]. destruct (in_help_static _ _ H) as [t [HS [<- K]]]. apply documented_static in HD; [|auto]. destruct HD as [f [E _]]. rewrite E in K. discriminate.
Qed.

Lemma listed_names : forall n, existsb (String.eqb n) (map h_name hdr_tmpls) = true -> In n (listed_headers headers_help).
Proof. intros n H. assert (EL : listed_headers headers_help = map h_name hdr_tmpls) by (vm_compute; reflexivity). rewrite EL. apply in_names. auto. Qed.

Lemma announces_at : forall n fld v, in_help n (fun t => match line_of t fld with Some l => match announced l with Some u => String.eqb u v | None => false end | None => false end) = true -> help_announces n fld v.
Proof.
  intros n fld v H. destruct (in_help_static _ _ H) as [t [HS [<- K]]]. destruct (line_of t fld) as [l|] eqn:HL; [|discriminate]. destruct (announced l) as [u|] eqn:HA; [|discriminate]. apply String.eqb_eq in K. subst u.
  destruct (help_lines_static t HS) as [HH _]. exists (field_lines (hdr_help [t] 0 true)), l. auto.
Qed.

(** Words determine every bit of the frame (C71). *)

From Verif Require Import PTextIp PTextNum PTextHex PTextMac PTextAddr Frame PSer SpecParse PParse PMatch SpecFrame PFrame PInv PStep PArgs PSoft PFill PGroup PAll PSafe PAssign PField SpecOrigin POrigin PImage PSum PEmit SpecFill PCheck PCheck2 PLen PKeep PTwice PCoap PSegs PWords SpecLayout PLayout Cmd Exec SpecExec PCmd PPair PExec PReplay SpecWhole PWhole SpecExact.

(** ** At most one such frame *)

(** *** Bits and bytes *)
Lemma number_bits : forall w b b' p, number_at b p w = number_at b' p w -> forall j, 0 <= j < Z.of_nat w -> bit_at b (p + j) = bit_at b' (p + j).
Proof.
  induction w as [|w IH]; intros b b' p H j Hj; [lia|]. cbn [number_at] in H.
  assert (H1 : number_at b p w = number_at b' p w) by (destruct (bit_at b (p + Z.of_nat w)), (bit_at b' (p + Z.of_nat w)); lia).
  destruct (Z.eq_dec j (Z.of_nat w)) as [ -> |Hne]; [|apply IH; [auto|lia]].
  destruct (bit_at b (p + Z.of_nat w)), (bit_at b' (p + Z.of_nat w)); auto; lia.
Qed.

Lemma byte_bits : forall x y, is_byte x -> is_byte y -> (forall j, 0 <= j < 8 -> Z.testbit x j = Z.testbit y j) -> x = y.
Proof.
  intros x y Hx Hy H. apply Z.bits_inj'. intros n Hn. destruct (Z.ltb_spec n 8) as [Hl|Hl]; [apply H; lia|].
  assert (G : forall z, is_byte z -> Z.testbit z n = false).
  { intros z Hz. unfold is_byte in Hz. destruct (Z.eq_dec z 0) as [ -> |Hz0]; [apply Z.testbit_0_l|]. apply Z.bits_above_log2; [lia|].
    assert (Z.log2 z < 8) by (apply Z.log2_lt_pow2; [lia|change (2 ^ 8) with 256; lia]). lia. }
  rewrite (G x Hx), (G y Hy). reflexivity.
Qed.

Lemma nth_byte : forall b i, Forall is_byte b -> is_byte (nth i b 0).
Proof. intros b i H. destruct (nth_in_or_default i b 0) as [Hi| -> ]; [rewrite Forall_forall in H; auto|unfold is_byte; lia]. Qed.

Lemma nth_bits : forall b b' i, Forall is_byte b -> Forall is_byte b' ->
  (forall j, 8 * Z.of_nat i <= j < 8 * Z.of_nat i + 8 -> bit_at b j = bit_at b' j) -> nth i b 0 = nth i b' 0.
Proof.
  intros b b' i Hb Hb' H. apply byte_bits; try apply nth_byte; auto. intros j Hj. specialize (H (8 * Z.of_nat i + (7 - j)) ltac:(lia)).
  unfold bit_at in H. replace ((8 * Z.of_nat i + (7 - j)) / 8) with (Z.of_nat i) in H by lia. replace (7 - (8 * Z.of_nat i + (7 - j)) mod 8) with j in H by lia.
  rewrite Nat2Z.id in H. exact H.
Qed.

Lemma nth_slice : forall (b : list Z) s n j, (j < n)%nat -> nth j (slice b s n) 0 = nth (s + j) b 0.
Proof.
  intros b s n j Hj. unfold slice. rewrite <- (firstn_skipn n (skipn s b)) at 1.
  assert (E : nth j (firstn n (skipn s b)) 0 = nth j (skipn s b) 0).
  { destruct (Nat.lt_ge_cases j (length (skipn s b))) as [Hl|Hl].
    - rewrite <- (firstn_skipn n (skipn s b)) at 2. rewrite app_nth1; [auto|]. rewrite firstn_length. lia.
    - rewrite (nth_overflow (skipn s b)) by auto. apply nth_overflow. rewrite firstn_length. lia. }
  rewrite firstn_skipn. rewrite E. clear E. destruct (Nat.lt_ge_cases s (length b)) as [Hl|Hl].
  - rewrite <- (firstn_skipn s b) at 2. rewrite app_nth2; rewrite firstn_length; [|lia]. f_equal. lia.
  - rewrite skipn_all2 by auto. rewrite (nth_overflow b) by lia. destruct j; reflexivity.
Qed.

Lemma slice_bits : forall b b' s n, length b = length b' -> Forall is_byte b -> Forall is_byte b' ->
  (forall i, 8 * Z.of_nat s <= i < 8 * Z.of_nat (s + n) -> bit_at b i = bit_at b' i) -> slice b s n = slice b' s n.
Proof.
  intros b b' s n HL Hb Hb' H. apply (nth_ext _ _ 0 0).
  - unfold slice. rewrite !firstn_length, !skipn_length. lia.
  - intros j Hj. assert (j < n)%nat by (unfold slice in Hj; rewrite firstn_length in Hj; lia). rewrite !nth_slice by auto. apply nth_bits; auto. intros i Hi. apply H. lia.
Qed.

Lemma blank_bits : forall b b' s n off, length b = length b' -> Forall is_byte b -> Forall is_byte b' ->
  (forall i, 8 * Z.of_nat s <= i < 8 * Z.of_nat (s + n) -> i < 8 * Z.of_nat (s + off) \/ 8 * Z.of_nat (s + off) + 16 <= i -> bit_at b i = bit_at b' i) ->
  blank off (slice b s n) = blank off (slice b' s n).
Proof.
  intros b b' s n off HL Hb Hb' H. unfold blank. f_equal; [|f_equal].
  - assert (E : forall x : list Z, firstn off (slice x s n) = slice x s (min off n)) by (intros x; unfold slice; rewrite firstn_firstn; auto).
    rewrite !E. apply slice_bits; auto. intros i Hi. apply H; lia.
  - assert (E : forall x : list Z, skipn (off + 2) (slice x s n) = slice x (s + (off + 2)) (n - (off + 2))).
    { intros x. unfold slice. rewrite skipn_firstn_comm. rewrite (skip_skip x s (off + 2)). reflexivity. }
    rewrite !E. apply slice_bits; auto. intros i Hi. apply H; lia.
Qed.

(** *** Formats cover their headers *)
Definition format_covers (p : string * format) : bool :=
  nodupb (map fst (snd p)) && forallb (fun q => 0 <? snd q) (snd p) && (bits (snd p) mod 8 =? 0) &&
  match place (snd p) "chksum" with
  | Some (off, w) =>
      (w =? 16) && ((String.eqb (fst p) "ipv4" && (off =? 80)) || (String.eqb (fst p) "udp" && (off =? 48)) ||
                    (String.eqb (fst p) "tcp" && (off =? 128)) || (String.eqb (fst p) "icmp" && (off =? 16)))
  | None => true
  end.
Lemma formats_cover : forallb format_covers formats = true.
Proof. vm_compute. reflexivity. Qed.

Lemma bits_nonneg : forall m, forallb (fun q => 0 <? snd q) m = true -> 0 <= bits m.
Proof. unfold bits. induction m as [|[n w] m IH]; intros H; cbn [fold_right]; [lia|]. cbn [forallb] in H. apply andb_true_iff in H. destruct H as [H1 H2]. cbn [snd] in *. specialize (IH H2). lia. Qed.

Lemma place_covers : forall m p i, NoDup (map fst m) -> forallb (fun q => 0 <? snd q) m = true -> p <= i < p + bits m ->
  exists fld off w, place_from p m fld = Some (off, w) /\ off <= i < off + w /\ p <= off /\ 0 < w /\ off + w <= p + bits m.
Proof.
  induction m as [|[n w] m IH]; intros p i ND HP Hi; [cbn in Hi; lia|]. unfold bits in *. cbn [fold_right snd] in *.
  cbn [forallb] in HP. apply andb_true_iff in HP. destruct HP as [H1 H2]. cbn [map fst] in ND. apply NoDup_cons_iff in ND. destruct ND as [N1 N2]. pose proof (bits_nonneg m H2) as HB. unfold bits in HB. cbn [snd] in *.
  destruct (Z.ltb_spec i (p + w)) as [Hl|Hl].
  - exists n, p, w. cbn [place_from]. rewrite String.eqb_refl. split; [auto|lia].
  - destruct (IH (p + w) i N2 H2 ltac:(lia)) as [fld [off [w' [K1 K2]]]]. exists fld, off, w'. cbn [place_from].
    destruct (String.eqb_spec n fld) as [ -> |_]; [|split; [auto|lia]]. exfalso. apply N1. eapply place_listed. exact K1.
Qed.

Lemma place_inside : forall m p fld off w, forallb (fun q => 0 <? snd q) m = true -> place_from p m fld = Some (off, w) -> p <= off /\ 0 < w /\ off + w <= p + bits m.
Proof.
  induction m as [|[n w0] m IH]; intros p fld off w HP H; cbn [place_from] in H; [discriminate|]. cbn [forallb] in HP. apply andb_true_iff in HP. destruct HP as [H1 H2]. cbn [snd] in *.
  pose proof (bits_nonneg m H2) as HB. unfold bits in *. cbn [fold_right snd]. destruct (String.eqb n fld).
  - apply some_inj in H. apply pair_inj in H. destruct H as [-> ->]. lia.
  - specialize (IH _ _ _ _ H2 H). lia.
Qed.

Record covers (n : string) (m : format) : Prop := MkCovers {
  cv_bits : bits m mod 8 = 0;
  cv_pos : 0 <= bits m;
  cv_in : forall fld off w, place m fld = Some (off, w) -> 0 <= off /\ 0 < w /\ off + w <= bits m;
  cv_all : forall i, 0 <= i < bits m -> exists fld off w, place m fld = Some (off, w) /\ off <= i < off + w;
  cv_sum : forall off w, place m "chksum" = Some (off, w) -> w = 16 /\
    ((n = "ipv4"%string /\ off = 80) \/ (n = "udp"%string /\ off = 48) \/ (n = "tcp"%string /\ off = 128) \/ (n = "icmp"%string /\ off = 16)) }.

Lemma format_covered : forall n m, format_named n m -> covers n m.
Proof.
  intros n m H. pose proof formats_cover as HC. rewrite forallb_forall in HC. specialize (HC _ H). unfold format_covers in HC. cbn [fst snd] in HC.
  rewrite !andb_true_iff in HC. destruct HC as [[[C1 C2] C3] C4]. constructor.
  - lia.
  - apply bits_nonneg; auto.
  - intros fld off w HP. pose proof (place_inside m 0 fld off w C2 HP). lia.
  - intros i Hi. destruct (place_covers m 0 i) as [fld [off [w [K1 K2]]]]; auto; [apply nodupb_spec; auto|]. exists fld, off, w. split; [auto|lia].
  - intros off w HP. rewrite HP in C4. rewrite andb_true_iff, !orb_true_iff, !andb_true_iff, !String.eqb_eq in C4. split; [lia|].
    destruct C4 as [_ [[[[C4 C5]|[C4 C5]]|[C4 C5]]|[C4 C5]]]; apply Z.eqb_eq in C5; tauto.
Qed.

(** *** Where the headers are *)
Lemma bits_of_app : forall a b, bits_of (a ++ b) = bits_of a + bits_of b.
Proof. unfold bits_of. induction a as [|p a IH]; intros b; cbn [app fold_right]; [lia|]. rewrite IH. lia. Qed.

Lemma bits_of_ok : forall hs, Forall well_written hs -> 0 <= bits_of hs /\ bits_of hs mod 8 = 0.
Proof.
  induction hs as [|p hs IH]; intros H; [unfold bits_of; cbn [fold_right]; split; [lia|reflexivity]|]. destruct (IH (Forall_inv_tail H)) as [I1 I2].
  destruct (Forall_inv H) as [m [Hn _]]. pose proof (format_covered _ _ Hn) as C. unfold bits_of in *. cbn [fold_right]. rewrite (header_bits_named _ _ Hn).
  pose proof (cv_bits _ _ C). pose proof (cv_pos _ _ C). lia.
Qed.

Lemma starts_bits : forall hs k, Forall well_written hs -> bits_of (firstn k hs) = 8 * starts hs k /\ 0 <= starts hs k /\ 8 * starts hs k <= bits_of hs.
Proof.
  intros hs k H. assert (H1 : Forall well_written (firstn k hs)) by (rewrite Forall_forall in *; intros x Hx; apply H; rewrite <- (firstn_skipn k hs); apply in_or_app; auto).
  assert (H2 : Forall well_written (skipn k hs)) by (rewrite Forall_forall in *; intros x Hx; apply H; rewrite <- (firstn_skipn k hs); apply in_or_app; auto).
  destruct (bits_of_ok _ H1) as [A1 A2]. destruct (bits_of_ok _ H2) as [B1 B2]. pose proof (bits_of_app (firstn k hs) (skipn k hs)) as E. rewrite firstn_skipn in E. unfold starts. lia.
Qed.

Lemma bits_of_next : forall hs k p m, nth_error hs k = Some p -> format_named (fst p) m -> bits_of (firstn (S k) hs) = bits_of (firstn k hs) + bits m.
Proof.
  intros hs k p m Hk Hn. rewrite (firstn_S_snoc _ _ _ _ Hk), bits_of_app. unfold bits_of. cbn [fold_right]. rewrite (header_bits_named _ _ Hn). lia.
Qed.

(** *** Two frames for the same words *)
Section Two.
Context (hs : headers) (ps : list piece) (b b' : list Z) (Hw : Forall well_written hs) (F : the_frame hs ps b) (F' : the_frame hs ps b').

Lemma two_length : length b = length b'.
Proof. destruct F as [F1 _], F' as [F2 _]. pose proof (fi_size _ _ _ F1). pose proof (fi_size _ _ _ F2). lia. Qed.

Lemma two_field : forall k p m fld off w, nth_error hs k = Some p -> format_named (fst p) m -> place m fld = Some (off, w) ->
  (last_given (snd p) fld = None -> not_given hs ps b k (fst p) fld = not_given hs ps b' k (fst p) fld) ->
  forall i, off <= i < off + w -> bit_at b (bits_of (firstn k hs) + i) = bit_at b' (bits_of (firstn k hs) + i).
Proof.
  intros k p m fld off w Hk Hn Hp Hv i Hi.
  assert (Hp' : well_written p) by (rewrite Forall_forall in Hw; apply Hw; eapply nth_error_In; eauto).
  assert (E : bits_at hs b k off w = bits_at hs b' k off w).
  { destruct F as [F1 F2], F' as [F3 F4]. destruct (last_given (snd p) fld) as [s|] eqn:Eg.
    - destruct Hp' as [m2 [Hm2 HA]]. assert (m2 = m) by (eapply one_format; eauto). subst m2.
      destruct (HA fld s (last_given_in _ _ _ Eg)) as [Hne [o2 [w2 [x [HP2 HM]]]]]. assert (w2 = w) by congruence. subst w2.
      pose proof (fi_fields _ _ _ F1 k p Hk m fld off w Hn Hne Hp) as G1. pose proof (fi_fields _ _ _ F3 k p Hk m fld off w Hn Hne Hp) as G2. rewrite Eg in G1, G2.
      rewrite (G1 x HM), (G2 x HM). reflexivity.
    - rewrite (F2 k p m fld off w), (F4 k p m fld off w) by auto. auto. }
  unfold bits_at in E. replace (bits_of (firstn k hs) + i) with (bits_of (firstn k hs) + off + (i - off)) by lia. apply (number_bits _ _ _ _ E). lia.
Qed.

(** All but the checksum *)
Lemma two_outside : forall k p m i, nth_error hs k = Some p -> format_named (fst p) m -> 0 <= i < bits m ->
  (forall off w, place m "chksum" = Some (off, w) -> i < off \/ off + w <= i) ->
  bit_at b (bits_of (firstn k hs) + i) = bit_at b' (bits_of (firstn k hs) + i).
Proof.
  intros k p m i Hk Hn Hi Hc. destruct (cv_all _ _ (format_covered _ _ Hn) i Hi) as [fld [off [w [Hp Hin]]]].
  apply (two_field k p m fld off w); auto. intros _. destruct (String.eqb_spec fld "chksum") as [ -> |Hne]; [destruct (Hc _ _ Hp); lia|].
  unfold not_given. apply String.eqb_neq in Hne. rewrite Hne. reflexivity.
Qed.

Lemma two_bytes_ok : Forall is_byte b /\ Forall is_byte b'.
Proof. destruct F as [F1 _], F' as [F2 _]. split; [apply (fi_bytes _ _ _ F1)|apply (fi_bytes _ _ _ F2)]. Qed.

Lemma two_slice : forall j p m o n, nth_error hs j = Some p -> format_named (fst p) m -> 8 * Z.of_nat (o + n) <= bits m ->
  (forall off w, place m "chksum" = Some (off, w) -> 8 * Z.of_nat (o + n) <= off \/ off + w <= 8 * Z.of_nat o) ->
  slice b (Z.to_nat (starts hs j) + o) n = slice b' (Z.to_nat (starts hs j) + o) n.
Proof.
  intros j p m o n Hj Hn Hb Hc. destruct two_bytes_ok as [B1 B2]. apply slice_bits; auto; [apply two_length|]. intros i Hi.
  destruct (starts_bits hs j Hw) as [S1 [S2 S3]]. replace i with (bits_of (firstn j hs) + (i - bits_of (firstn j hs))) by lia.
  apply (two_outside j p m); auto; [lia|]. intros off w Hp. destruct (Hc _ _ Hp); lia.
Qed.

Lemma two_pseudo : forall k proto, pseudo hs ps b k proto = pseudo hs ps b' k proto.
Proof.
  intros [|j] proto; [reflexivity|]. cbn [pseudo]. destruct (nth_error hs j) as [p|] eqn:Hj; [|reflexivity].
  assert (Hp' : well_written p) by (rewrite Forall_forall in Hw; apply Hw; eapply nth_error_In; eauto). destruct Hp' as [m [Hn _]].
  destruct (String.eqb_spec (fst p) "ipv4") as [E4|_].
  - assert (Em : find (fun q => String.eqb (fst q) "ipv4") formats = Some ("ipv4"%string, m)) by (apply find_format; rewrite <- E4; exact Hn).
    cbn in Em. apply some_inj in Em. apply pair_inj in Em. destruct Em as [_ Em].
    assert (K : bits m = 160 /\ place m "chksum" = Some (80, 16)) by (rewrite <- Em; split; reflexivity). destruct K as [K1 K2].
    f_equal. unfold pseudo_header4. f_equal; [|f_equal]; apply (two_slice j p m); auto; try (rewrite K1; lia); intros off w HP; rewrite K2 in HP; apply some_inj in HP; apply pair_inj in HP; lia.
  - destruct (String.eqb_spec (fst p) "ipv6") as [E6|_]; [|reflexivity].
    assert (Em : find (fun q => String.eqb (fst q) "ipv6") formats = Some ("ipv6"%string, m)) by (apply find_format; rewrite <- E6; exact Hn).
    cbn in Em. apply some_inj in Em. apply pair_inj in Em. destruct Em as [_ Em].
    assert (K : bits m = 320 /\ place m "chksum" = None) by (rewrite <- Em; split; reflexivity). destruct K as [K1 K2].
    f_equal. unfold pseudo_header6. f_equal; [|f_equal]; apply (two_slice j p m); auto; try (rewrite K1; lia); intros off w HP; rewrite K2 in HP; discriminate.
Qed.

Lemma two_covered : forall k p m, nth_error hs k = Some p -> format_named (fst p) m ->
  (forall i, bits_of (firstn (S k) hs) <= i -> bit_at b i = bit_at b' i) ->
  forall off w, place m "chksum" = Some (off, w) -> covered hs ps b k (fst p) = covered hs ps b' k (fst p).
Proof.
  intros k p m Hk Hn Hrest off w Hp. destruct two_bytes_ok as [B1 B2]. destruct (starts_bits hs k Hw) as [S1 [S2 S3]].
  pose proof (format_covered _ _ Hn) as C. pose proof (bits_of_next hs k p m Hk Hn) as EN.
  assert (G : forall o n, off = 8 * Z.of_nat o -> w = 16 -> blank o (slice b (Z.to_nat (starts hs k)) n) = blank o (slice b' (Z.to_nat (starts hs k)) n)).
  { intros o n Eo Ew. apply blank_bits; auto; [apply two_length|]. intros i Hi Hout.
    destruct (Z.ltb_spec i (bits_of (firstn (S k) hs))) as [Hl|Hl]; [|apply Hrest; auto].
    replace i with (bits_of (firstn k hs) + (i - bits_of (firstn k hs))) by lia. apply (two_outside k p m); auto; [lia|]. intros o2 w2 Hp2. assert (o2 = off /\ w2 = w) by (split; congruence). lia. }
  destruct (cv_sum _ _ C off w Hp) as [Ew HS]. unfold covered.
  destruct HS as [[E Eo]|[[E Eo]|[[E Eo]|[E Eo]]]]; rewrite E; cbn [String.eqb Ascii.eqb Bool.eqb].
  - f_equal. apply (G 10%nat); [lia|auto].
  - rewrite (two_pseudo k 17). unfold from_header. rewrite (G 6%nat) by (auto; lia). reflexivity.
  - rewrite (two_pseudo k 6). unfold from_header. rewrite (G 16%nat) by (auto; lia). reflexivity.
  - rewrite (two_pseudo k 58). unfold from_header. rewrite (G 2%nat) by (auto; lia). reflexivity.
Qed.

Lemma two_tail : forall i, bits_of hs <= i -> bit_at b i = bit_at b' i.
Proof.
  intros i Hi. destruct (bits_of_ok hs Hw) as [H1 H2]. destruct F as [F1 _], F' as [F2 _].
  set (s := Z.to_nat (bits_of hs / 8)). set (n := length (payload ps)).
  assert (E : nth (Z.to_nat (i / 8)) b 0 = nth (Z.to_nat (i / 8)) b' 0).
  { destruct (Nat.lt_ge_cases (Z.to_nat (i / 8)) (s + n)) as [Hl|Hl].
    - pose proof (fi_payload _ _ _ F1) as P1. pose proof (fi_payload _ _ _ F2) as P2. fold s n in P1, P2.
      assert (E : slice b s n = slice b' s n) by (rewrite P1, P2; reflexivity).
      replace (Z.to_nat (i / 8)) with (s + (Z.to_nat (i / 8) - s))%nat by lia. rewrite <- (nth_slice b s n), <- (nth_slice b' s n) by lia. rewrite E. reflexivity.
    - rewrite (fi_rest _ _ _ F1), (fi_rest _ _ _ F2) by (fold s n; lia). reflexivity. }
  unfold bit_at. rewrite E. reflexivity.
Qed.

Lemma two_all : forall d k, (k + d = length hs)%nat -> forall i, bits_of (firstn k hs) <= i -> bit_at b i = bit_at b' i.
Proof.
  induction d as [|d IH]; intros k Hk i Hi.
  - rewrite firstn_all2 in Hi by lia. apply two_tail. auto.
  - destruct (nth_error hs k) as [p|] eqn:Hp; [|apply nth_error_None in Hp; lia].
    assert (Hp' : well_written p) by (rewrite Forall_forall in Hw; apply Hw; eapply nth_error_In; eauto). destruct Hp' as [m [Hn _]].
    specialize (IH (S k) ltac:(lia)). pose proof (bits_of_next hs k p m Hp Hn) as EN.
    destruct (Z.ltb_spec i (bits_of (firstn (S k) hs))) as [Hl|Hl]; [|apply IH; auto].
    replace i with (bits_of (firstn k hs) + (i - bits_of (firstn k hs))) by lia.
    destruct (cv_all _ _ (format_covered _ _ Hn) (i - bits_of (firstn k hs)) ltac:(lia)) as [fld [off [w [HP Hin]]]].
    apply (two_field k p m fld off w); auto. intros _. unfold not_given.
    destruct (String.eqb_spec fld "chksum") as [ -> |_]; [|reflexivity]. rewrite (two_covered k p m Hp Hn IH off w HP). reflexivity.
Qed.

Lemma two_same : b = b'.
Proof.
  destruct two_bytes_ok as [B1 B2]. apply (nth_ext _ _ 0 0); [apply two_length|]. intros i _. apply nth_bits; auto. intros j Hj.
  apply (two_all (length hs) 0%nat); [lia|]. cbn [firstn bits_of fold_right]. lia.
Qed.
End Two.

(** ** The program emits such a frame *)

(** *** The tables against one another *)
Definition len_place (q : string * (string * Z * Z)) : bool :=
  let '(n, (fld, off, _)) := q in
  negb (String.eqb fld "-") &&
  forallb (fun p => negb (String.eqb (fst p) n) || match place (snd p) fld with Some (o, w) => (o =? off) && (w =? 16) | None => false end) formats.
Lemma lens_placed : forallb len_place length_fields = true.
Proof. vm_compute. reflexivity. Qed.

Definition typ_place (q : string * (string * Z * Z * Z)) : bool :=
  let '(n, (fld, off, w, _)) := q in
  negb (String.eqb fld "-") &&
  forallb (fun p => negb (String.eqb (fst p) n) || match place (snd p) fld with Some (o, w') => (o =? off) && (w' =? w) | None => false end) formats.
Lemma typs_placed : forallb typ_place type_fields = true.
Proof. vm_compute. reflexivity. Qed.

(** What else is worked out *)
Definition other_chk (p : string * format) : bool :=
  forallb (fun q => negb (is_worked_out (fst p) (fst q)) || String.eqb (fst q) "chksum" || (String.eqb (fst p) "coap" && String.eqb (fst q) "tkl") ||
    match length_field (fst p) (fst q), type_field (fst p) (fst q) with None, None => false | _, _ => true end) (snd p).
Lemma others_checked : forallb other_chk formats = true.
Proof. vm_compute. reflexivity. Qed.

(** Bits without a name belong to a field that has the name of an earlier one. *)
Definition hid_chk (p : string * format) : bool :=
  match place (snd p) "-" with
  | None => true
  | Some (off, w) =>
      match find_tmpl (fst p) with
      | None => false
      | Some t =>
          existsb (fun j => lone_chk (map lay (h_fields t)) j off w &&
            match nth_error (h_fields t) j with
            | Some g => negb (first_namedb (h_fields t) j (f_name g)) && match f_val g, f_def g with None, None => true | _, _ => false end
            | None => false
            end) (seq 0 (length (h_fields t))) &&
          (0 <=? off) && (0 <=? w) && (off + w <=? 8 * h_size t) && negb (varhdr t) && value_fill (h_fill t) &&
          match h_fill t with FL_none | FL_ptp => true | _ => false end && (preset_value (fst p) "-" =? 0) &&
          match length_field (fst p) "-", type_field (fst p) "-" with None, None => true | _, _ => false end
      end
  end.
Lemma hidden_checked : forallb hid_chk formats = true.
Proof. vm_compute. reflexivity. Qed.

Lemma not_first : forall fs j n, first_namedb fs j n = false -> ~ first_named fs j n.
Proof.
  intros fs j n H HF. unfold first_namedb in H. apply negb_false_iff in H. apply existsb_exists in H. destruct H as [g [H1 H2]]. apply String.eqb_eq in H2.
  apply In_nth_error in H1. destruct H1 as [i Hi]. assert (Hlt : (i < j)%nat) by (assert (nth_error (firstn j fs) i <> None) by congruence; apply nth_error_Some in H; rewrite firstn_length in H; lia).
  assert (Hj : nth_error fs i = Some g) by (rewrite <- (firstn_skipn j fs); rewrite nth_error_app1; [exact Hi|apply nth_error_Some; congruence]). apply (HF i g Hlt Hj H2).
Qed.

Section Emitted.
Context (hs : headers) (ps : list piece) (Hw : Forall well_written hs) (Hok : Forall piece_ok ps)
  (Hl : Z.of_nat (length (text hs ps)) <= 100) (Hp : Z.of_nat (length (payload ps)) <= 110000)
  (f' : frame) (b : list Z) (HS : serialised (text hs ps) (MkFrame (stack_for hs ps) 0 false) f' b)
  (HI : frame_is hs ps b) (HH : forall k p, nth_error hs k = Some p -> header_is (MkFrame (stack_for hs ps) 0 false) k p).

Local Notation fr := (MkFrame (stack_for hs ps) 0 false).

Lemma at_header : forall k, (k <= length hs)%nat -> start_of (fr_stack f') k = starts hs k.
Proof.
  intros k Hk. pose proof (whole_sizes _ _ _ _ Hw HS) as HZ. destruct (start_same _ _ k HZ) as [Z1 _]. pose proof (start_header hs ps k Hw Hk) as E. unfold starts. lia.
Qed.

Lemma at_byte_header : forall k, (k <= length hs)%nat -> at_byte f' k = Z.to_nat (starts hs k).
Proof. intros k Hk. unfold at_byte. rewrite at_header by auto. reflexivity. Qed.

Lemma left_header : forall k, (k <= length hs)%nat -> bytes_from f' k = bytes_left hs ps k.
Proof.
  intros k Hk. unfold bytes_from, bytes_left, ends. rewrite at_header by auto. pose proof (whole_sizes _ _ _ _ Hw HS) as HZ. destruct (start_same _ _ 0%nat HZ) as [_ Z2].
  rewrite Z2. unfold stack_for. rewrite sum_sizes_app, payload_size. pose proof (stack_bits_of hs Hw). lia.
Qed.

Lemma message_header : forall k, (k <= length hs)%nat -> message f' b k = from_header hs ps b k.
Proof. intros k Hk. unfold message, from_header. rewrite at_byte_header, left_header by auto. reflexivity. Qed.

Lemma bits_header : forall k off w, (k <= length hs)%nat -> bits_at hs b k off w = field_at f' b k off (Z.to_nat w).
Proof. intros k off w Hk. unfold bits_at, field_at. rewrite at_header by auto. destruct (starts_bits hs k Hw) as [E _]. rewrite E. reflexivity. Qed.

Lemma index_ok : forall k p, nth_error hs k = Some p -> (k < length hs)%nat /\ well_written p.
Proof. intros k p Hk. split; [apply nth_error_Some; congruence|]. rewrite Forall_forall in Hw. apply Hw. eapply nth_error_In; eauto. Qed.

Lemma gave_header : forall k p m fld off w, nth_error hs k = Some p -> format_named (fst p) m -> place m fld = Some (off, w) -> fld <> "-"%string ->
  last_given (snd p) fld = None -> user_gave fr k fld = false.
Proof. intros k p m fld off w Hk Hn HP Hne Hg. destruct (HH k p Hk) as [_ H]. rewrite (H m fld off w Hn Hne HP), Hg. reflexivity. Qed.

Lemma stack_at : forall k p, nth_error hs k = Some p -> nth_error (fr_stack fr) k = Some (hdr_for p).
Proof. intros k p Hk. cbn [fr_stack]. unfold stack_for. rewrite nth_error_app1; [rewrite nth_error_map, Hk; auto|rewrite map_length; apply nth_error_Some; congruence]. Qed.

Lemma named_at : forall k p, nth_error hs k = Some p -> named fr k (fst p).
Proof. intros k p Hk. apply (HH k p Hk). Qed.

Lemma named_inv : forall k p n, nth_error hs k = Some p -> named fr k n -> n = fst p.
Proof. intros k p n Hk [h [H1 H2]]. destruct (named_at k p Hk) as [h2 [H3 H4]]. congruence. Qed.

(** *** The next header *)
Lemma names_at : forall k, option_map h_name (nth_error (fr_stack fr) k) = nth_error (header_names hs ps) k.
Proof.
  intros k. cbn [fr_stack]. unfold stack_for, header_names. destruct (Nat.lt_ge_cases k (length hs)) as [Hlt|Hge].
  - rewrite !nth_error_app1 by (rewrite map_length; auto). rewrite !nth_error_map. destruct (nth_error hs k) as [p|] eqn:Ek; [|apply nth_error_None in Ek; lia]. cbn [option_map].
    destruct (index_ok k p Ek) as [_ Hp']. destruct (written_fits p Hp') as [m [t [HT _]]]. destruct (hdr_for_like _ _ _ HT) as [E _]. rewrite E. reflexivity.
  - rewrite !nth_error_app2 by (rewrite map_length; auto). rewrite !map_length. destruct ps as [|q r]; cbn [payload_hdr]; [destruct (k - length hs)%nat; reflexivity|].
    destruct (k - length hs)%nat as [|[|i]]; reflexivity.
Qed.

Lemma chksum_said : forall k p, nth_error hs k = Some p -> fst p = "icmp"%string -> user_gave fr k "chksum" = says hs k "chksum".
Proof.
  intros k p Hk E. destruct (HH k p Hk) as [_ H]. destruct (index_ok k p Hk) as [_ [m [Hn _]]].
  assert (Em : find (fun q => String.eqb (fst q) "icmp") formats = Some ("icmp"%string, m)) by (apply find_format; rewrite <- E; exact Hn).
  cbn in Em. apply some_inj in Em. apply pair_inj in Em. destruct Em as [_ Em]. unfold says. rewrite Hk.
  apply (H m "chksum"%string 16 16 Hn); [discriminate|rewrite <- Em; reflexivity].
Qed.

Lemma next_is : forall k n d, (k < length hs)%nat -> next_said fr k n d = next_header hs ps k n d.
Proof.
  intros k n d Hk. unfold next_said, next_header. pose proof (names_at (S k)) as HN. destruct (nth_error (fr_stack fr) (S k)) as [nx|] eqn:En; cbn [option_map] in HN; rewrite <- HN; [|reflexivity].
  unfold announced. destruct (String.eqb_spec (h_name nx) "icmp") as [Ei|Ei]; [|rewrite andb_false_r; reflexivity].
  destruct (nth_error hs (S k)) as [p|] eqn:Ep.
  - rewrite (chksum_said (S k) p Ep); [reflexivity|]. symmetry. apply (named_inv (S k) p); [auto|]. exists nx. auto.
  - exfalso. unfold header_names in HN. apply nth_error_None in Ep. rewrite nth_error_app2 in HN by (rewrite map_length; auto). symmetry in HN. apply nth_error_In in HN.
    destruct ps; [destruct HN|]. destruct HN as [HN|[]]. congruence.
Qed.

(** *** Lengths and types *)
Lemma emitted_length_field : forall k p m fld off w u, nth_error hs k = Some p -> format_named (fst p) m -> place m fld = Some (off, w) ->
  last_given (snd p) fld = None -> length_field (fst p) fld = Some u -> bits_at hs b k off w = (bytes_left hs ps k - u) mod 65536.
Proof.
  intros k p m fld off w u Hk Hn HP Hg HL. unfold length_field in HL. destruct (find _ length_fields) as [[n [[fl o] u']]|] eqn:Ef; [|discriminate]. cbn [fst snd] in HL. apply some_inj in HL. subst u'.
  destruct (find_some _ _ Ef) as [Hin E]. cbn [fst snd] in E. rewrite andb_true_iff, !String.eqb_eq in E. destruct E as [-> ->].
  pose proof lens_placed as HC. rewrite forallb_forall in HC. specialize (HC _ Hin). cbn [len_place] in HC. rewrite andb_true_iff in HC. destruct HC as [C1 C2].
  rewrite forallb_forall in C2. specialize (C2 _ Hn). cbn [fst snd] in C2. rewrite String.eqb_refl, HP in C2. cbn [negb orb] in C2. assert (o = off /\ w = 16) by lia. destruct H as [-> ->].
  apply negb_true_iff, String.eqb_neq in C1. destruct (index_ok k p Hk) as [Hlt _]. rewrite bits_header by lia. rewrite <- left_header by lia.
  apply (lengths (text hs ps) fr f' b k (fst p) fld off u); auto; [apply named_at; auto|eapply gave_header; eauto].
Qed.

Lemma emitted_type_field : forall k p m fld off w w' d, nth_error hs k = Some p -> format_named (fst p) m -> place m fld = Some (off, w) ->
  last_given (snd p) fld = None -> type_field (fst p) fld = Some (w', d) -> bits_at hs b k off w = next_header hs ps k (fst p) d mod 2 ^ w'.
Proof.
  intros k p m fld off w w' d Hk Hn HP Hg HL. unfold type_field in HL. destruct (find _ type_fields) as [[n [[[fl o] v] e]]|] eqn:Ef; [|discriminate]. cbn [fst snd] in HL. apply some_inj in HL. apply pair_inj in HL. destruct HL as [-> ->].
  destruct (find_some _ _ Ef) as [Hin E]. cbn [fst snd] in E. rewrite andb_true_iff, !String.eqb_eq in E. destruct E as [-> ->].
  pose proof typs_placed as HC. rewrite forallb_forall in HC. specialize (HC _ Hin). cbn [typ_place] in HC. rewrite andb_true_iff in HC. destruct HC as [C1 C2].
  rewrite forallb_forall in C2. specialize (C2 _ Hn). cbn [fst snd] in C2. rewrite String.eqb_refl, HP in C2. cbn [negb orb] in C2. assert (o = off /\ w = w') by lia. destruct H as [-> ->].
  apply negb_true_iff, String.eqb_neq in C1. destruct (index_ok k p Hk) as [Hlt _]. rewrite bits_header by lia. rewrite <- next_is by lia.
  apply (chaining (text hs ps) fr f' b k (fst p) fld off w' d); auto; [apply named_at; auto|eapply gave_header; eauto].
Qed.

(** *** Checksums *)
Lemma frame_short : zlen b < 131000.
Proof.
  unfold zlen. rewrite (fi_size _ _ _ HI). pose proof (stack_bits_of hs Hw) as HB.
  assert (H1 : bulk_of (map hdr_for hs) <= 204 * Z.of_nat (length hs)).
  { clear - Hw. induction Hw as [|p r Hp1 Hr IH]; [cbn; lia|]. cbn [map bulk_of fold_right length]. fold (bulk_of (map hdr_for r)). destruct (hdr_for_bits p Hp1). specialize (IH Hr). lia. }
  assert (H2 : sum_sizes (map hdr_for hs) + 4 * Z.of_nat (length hs) = bulk_of (map hdr_for hs)).
  { clear. unfold sum_sizes. induction hs as [|p r IH]; [reflexivity|]. cbn [map bulk_of fold_right length]. fold (bulk_of (map hdr_for r)). lia. }
  pose proof (text_long hs ps). lia.
Qed.

Lemma stored : forall s n o, Forall is_byte b -> (s + n <= length b)%nat -> (o + 2 <= n)%nat -> number_at b (8 * Z.of_nat (s + o)) 16 = positional 256 (slice (slice b s n) o 2).
Proof.
  intros s n o Hb Hs Ho. change 16%nat with (8 * 2)%nat. rewrite number_slice; [|apply is_byte_bytes; auto|lia]. f_equal. rewrite slice_slice by lia. reflexivity.
Qed.

Lemma at_word : forall k o n, (k <= length hs)%nat -> (Z.to_nat (starts hs k) + n <= length b)%nat -> (o + 2 <= n)%nat ->
  bits_at hs b k (8 * Z.of_nat o) 16 = positional 256 (slice (slice b (Z.to_nat (starts hs k)) n) o 2).
Proof.
  intros k o n Hk Hs Ho. rewrite <- stored by (auto; apply (fi_bytes _ _ _ HI)). unfold bits_at. destruct (starts_bits hs k Hw) as [E [E2 _]]. rewrite E. f_equal. lia.
Qed.

Lemma room : forall k p m, nth_error hs k = Some p -> format_named (fst p) m ->
  8 * starts hs k + bits m <= bits_of hs /\ bits m <= 8 * bytes_left hs ps k /\ starts hs k + bytes_left hs ps k <= zlen b.
Proof.
  intros k p m Hk Hn. pose proof (bits_of_next hs k p m Hk Hn) as E. destruct (starts_bits hs k Hw) as [E1 [E2 E3]]. destruct (starts_bits hs (S k) Hw) as [E4 [E5 E6]].
  unfold bytes_left, ends, zlen. rewrite (fi_size _ _ _ HI). pose proof (fi_whole _ _ _ HI). split; [lia|]. lia.
Qed.

Lemma sum_word : forall k p m off P o, nth_error hs k = Some p -> format_named (fst p) m -> place m "chksum" = Some (off, 16) -> off = 8 * Z.of_nat o ->
  summed P o (from_header hs ps b k) -> bits_at hs b k off 16 = positional 256 (once (P ++ blank o (from_header hs ps b k))).
Proof.
  intros k p m off P o Hk Hn HP Eo [H _]. destruct (index_ok k p Hk) as [Hlt _]. destruct (room k p m Hk Hn) as [R1 [R2 R3]].
  pose proof (cv_in _ _ (format_covered _ _ Hn) _ _ _ HP) as [I1 [I2 I3]]. destruct (starts_bits hs k Hw) as [E1 [E2 E3]]. subst off.
  rewrite (at_word k o (Z.to_nat (bytes_left hs ps k))); try lia; [|unfold zlen in R3; lia]. fold (from_header hs ps b k). rewrite H. reflexivity.
Qed.

Lemma no_pseudo : forall k p m off t, nth_error hs k = Some p -> format_named (fst p) m -> place m "chksum" = Some (off, 16) ->
  last_given (snd p) "chksum" = None -> find_tmpl (fst p) = Some t -> h_fill t = FL_udp_tcp ->
  varhdr t = false -> at_place t "chksum" off 16 = true -> match find_field t "chksum" with Some ft => f_def ft | None => None end = None -> 0 <= off -> off + 16 <= 8 * h_size t ->
  (forall j q, k = S j -> nth_error hs j = Some q -> fst q <> "ipv4"%string /\ fst q <> "ipv6"%string) -> bits_at hs b k off 16 = 0.
Proof.
  intros k p m off t Hk Hn HP Hg Et Ef Hv Ha Hd H0 Hin Hno. destruct (index_ok k p Hk) as [Hlt _]. rewrite bits_header by lia.
  pose proof (gave_header k p m "chksum" off 16 Hk Hn HP ltac:(discriminate) Hg) as HG.
  destruct (named_emitting _ _ _ _ _ _ t HS (named_at k p Hk) Et) as [h [h' [E [En Hk2]]]]. rewrite (gave _ _ _ _ Hk2) in HG.
  destruct (emitting_tail _ _ _ _ _ _ _ E) as [WhB [WB [Wh Wh']]]. pose proof (e_run _ _ _ _ _ _ _ E) as HR. rewrite Ef in HR. cbn [run_fill] in HR. apply udp_eff in HR; [|exact WhB].
  destruct (at_place_find _ _ _ _ Ha) as [ft Hft]. pose proof (e_inv _ _ _ _ _ _ _ E) as I. destruct (inv_find _ _ _ _ I Hft) as [fl [Hfl Hs]].
  destruct HR as [[-> _]|[_ [A' [ll [t2 [ph [bb [EA [EP _]]]]]]]]].
  - assert (Hfl' : find_field (udp_len h (skipn (S k) (fr_stack f'))) "chksum" = Some fl) by (unfold udp_len; rewrite setd_other by discriminate; auto).
    rewrite (em_field _ _ _ _ _ _ _ "chksum"%string off 16 fl E ltac:(rewrite Ef; reflexivity) Hv Ha H0 ltac:(lia) Hin Hfl').
    rewrite (given_data t h "chksum" fl I Hfl HG Hd). reflexivity.
  - exfalso. destruct k as [|j]; [cbn [firstn] in EA; destruct A'; discriminate|]. destruct (nth_error hs j) as [q|] eqn:Ej; [|apply nth_error_None in Ej; lia].
    destruct (Hno j q eq_refl Ej) as [N1 N2]. rewrite (firstn_S_snoc _ _ _ _ (stack_at j q Ej)) in EA. apply app_inj_tail in EA. destruct EA as [_ <-].
    destruct (named_at j q Ej) as [h3 [H3 H4]]. rewrite (stack_at j q Ej) in H3. apply some_inj in H3. subst h3. rewrite H4 in EP. unfold pseudo_for in EP.
    apply String.eqb_neq in N1, N2. rewrite N1, N2 in EP. discriminate.
Qed.

Lemma pseudo_of : forall k x, (k < length hs)%nat ->
  (exists j q, k = S j /\ nth_error hs j = Some q /\ (fst q = "ipv4" \/ fst q = "ipv6")%string /\
     pseudo hs ps b k x = Some (if String.eqb (fst q) "ipv4" then pseudo_header4 b (at_byte f' j) x (bytes_from f' (S j) mod 65536) else pseudo_header6 b (at_byte f' j) x (bytes_from f' (S j)))) \/
  (pseudo hs ps b k x = None /\ forall j q, k = S j -> nth_error hs j = Some q -> fst q <> "ipv4"%string /\ fst q <> "ipv6"%string).
Proof.
  intros [|j] x Hk; [right; split; [reflexivity|intros j q H; discriminate]|]. cbn [pseudo]. destruct (nth_error hs j) as [q|] eqn:Ej; [|apply nth_error_None in Ej; lia].
  rewrite <- (at_byte_header j), <- (left_header (S j)) by lia.
  destruct (String.eqb_spec (fst q) "ipv4") as [E4|E4]; [left; exists j, q; rewrite E4; tauto|].
  destruct (String.eqb_spec (fst q) "ipv6") as [E6|E6]; [left; exists j, q; rewrite E6; tauto|]. right. split; [reflexivity|]. intros j2 q2 H1 H2. injection H1 as <-. assert (q2 = q) by congruence. subst q2. auto.
Qed.

Lemma emitted_transport : forall k p m x o t, nth_error hs k = Some p -> format_named (fst p) m -> place m "chksum" = Some (8 * Z.of_nat o, 16) ->
  last_given (snd p) "chksum" = None -> transport (fst p) x o -> find_tmpl (fst p) = Some t -> h_fill t = FL_udp_tcp ->
  varhdr t = false -> at_place t "chksum" (8 * Z.of_nat o) 16 = true -> match find_field t "chksum" with Some ft => f_def ft | None => None end = None -> 8 * Z.of_nat o + 16 <= 8 * h_size t ->
  bits_at hs b k (8 * Z.of_nat o) 16 = match option_map (fun P => P ++ blank o (from_header hs ps b k)) (pseudo hs ps b k x) with Some d => positional 256 (once d) | None => 0 end.
Proof.
  intros k p m x o t Hk Hn HP Hg HT Et Ef Hv Ha Hd Hin. destruct (index_ok k p Hk) as [Hlt _].
  destruct (pseudo_of k x Hlt) as [[j [q [-> [Ej [Hq EP]]]]]|[EP Hno]]; rewrite EP; cbn [option_map].
  - apply (sum_word (S j) p m); auto. rewrite <- message_header by lia.
    apply (transport_checksum (text hs ps) fr f' b j (fst q) (fst p) x o); auto; [apply named_at; auto|apply named_at; auto|eapply gave_header; eauto; discriminate|apply frame_short].
  - apply (no_pseudo k p m _ t); auto. lia.
Qed.

Lemma emitted_chksum : forall k p m off w, nth_error hs k = Some p -> format_named (fst p) m -> place m "chksum" = Some (off, w) ->
  last_given (snd p) "chksum" = None -> bits_at hs b k off w = match covered hs ps b k (fst p) with Some d => positional 256 (once d) | None => 0 end.
Proof.
  intros k p m off w Hk Hn HP Hg. destruct (index_ok k p Hk) as [Hlt _]. pose proof (named_at k p Hk) as HN. pose proof frame_short as HB.
  pose proof (gave_header k p m "chksum" off w Hk Hn HP ltac:(discriminate) Hg) as HG.
  destruct (cv_sum _ _ (format_covered _ _ Hn) off w HP) as [-> HC]. unfold covered.
  destruct HC as [[E ->]|[[E ->]|[[E ->]|[E ->]]]]; rewrite E; cbn [String.eqb Ascii.eqb Bool.eqb].
  - rewrite E in HN. destruct (ipv4_checksum _ _ _ _ _ HS HN HG) as [H _]. rewrite at_byte_header in H by lia. cbn [app] in H. rewrite <- H.
    destruct (room k p m Hk Hn) as [R1 [R2 R3]]. destruct (starts_bits hs k Hw) as [E1 [E2 E3]].
    assert (HM : bits m = 160).
    { assert (Em : find (fun q => String.eqb (fst q) "ipv4") formats = Some ("ipv4"%string, m)) by (apply find_format; rewrite <- E; exact Hn).
      cbn in Em. apply some_inj in Em. apply pair_inj in Em. destruct Em as [_ Em]. rewrite <- Em. reflexivity. }
    apply (at_word k 10 20); unfold zlen in *; lia.
  - apply (emitted_transport k p m 17 6 HDR_UDP); auto; try (rewrite E; vm_compute; reflexivity); try (vm_compute; reflexivity); [left; auto|vm_compute; discriminate].
  - apply (emitted_transport k p m 6 16 HDR_TCP); auto; try (rewrite E; vm_compute; reflexivity); try (vm_compute; reflexivity); [right; auto|vm_compute; discriminate].
  - rewrite E in HN. destruct (icmp_checksum _ _ _ _ _ HS HN HG HB) as [H1 H2]. unfold after_ipv6. destruct k as [|j].
    + apply (sum_word 0 p m 16 [] 2); auto. rewrite <- message_header by lia. apply H2. intros j Hj. discriminate.
    + destruct (nth_error hs j) as [q|] eqn:Ej; [|apply nth_error_None in Ej; lia]. destruct (String.eqb_spec (fst q) "ipv6") as [E6|E6].
      * cbn [pseudo]. rewrite Ej, E6. cbn [String.eqb Ascii.eqb Bool.eqb option_map]. apply (sum_word (S j) p m 16 _ 2); auto. rewrite <- message_header by lia.
        rewrite <- at_byte_header, <- left_header by lia. apply H1; [reflexivity|]. rewrite <- E6. apply named_at. auto.
      * apply (sum_word (S j) p m 16 [] 2); auto. rewrite <- message_header by lia. apply H2. intros j2 Hj HN2. injection Hj as <-. apply E6. symmetry. eapply named_inv; eauto.
Qed.

(** *** Without a token the token length is zero *)
Lemma emitted_tkl : forall k p m off w, nth_error hs k = Some p -> format_named (fst p) m -> place m "tkl" = Some (off, w) -> fst p = "coap"%string ->
  last_given (snd p) "tkl" = None -> bits_at hs b k off w = 0.
Proof.
  intros k p m off w Hk Hn HP En Hg. destruct (index_ok k p Hk) as [Hlt Hp']. rewrite bits_header by lia.
  assert (Em : m = coap5).
  { assert (Em : find (fun q => String.eqb (fst q) "coap") formats = Some ("coap"%string, m)) by (apply find_format; rewrite <- En; exact Hn).
    cbn in Em. apply some_inj in Em. apply pair_inj in Em. destruct Em as [_ Em]. rewrite <- Em. reflexivity. }
  subst m. assert (off = 4 /\ w = 4) by (cbn in HP; apply some_inj in HP; apply pair_inj in HP; lia). destruct H as [-> ->].
  destruct (written_fits p Hp') as [m2 [t [HT HA]]]. assert (m2 = coap5) by (eapply one_format; [apply (ft_named _ _ _ HT)|exact Hn]). subst m2.
  assert (t = HDR_COAP) by (pose proof (ft_find _ _ _ HT) as Q; rewrite En in Q; vm_compute in Q; vm_compute; congruence). subst t.
  destruct (named_emitting _ _ _ _ _ _ HDR_COAP HS (named_at k p Hk)) as [h [h' [E [_ Hk2]]]]; [rewrite En; reflexivity|].
  rewrite (stack_at k p Hk) in Hk2. apply some_inj in Hk2. subst h.
  assert (G : forall fld, fld = "token"%string \/ fld = "tkl"%string -> last_given (snd p) fld = None -> exists fl, find_field (hdr_for p) fld = Some fl /\ f_val fl = None /\ f_def fl = match find_field HDR_COAP fld with Some ft => f_def ft | None => None end).
  { intros fld Hf Hgf. unfold hdr_for. rewrite (ft_find _ _ _ HT). destruct (find_field HDR_COAP fld) as [ft|] eqn:Eft; [|destruct Hf as [-> | ->]; discriminate].
    destruct (assigned_find (snd p) HDR_COAP fld ft Eft) as [g [G1 G2]]. exists g. split; [auto|]. rewrite Hgf in G2.
    split; [rewrite G2; destruct Hf as [-> | ->]; cbn in Eft; apply some_inj in Eft; subst ft; reflexivity|].
    assert (G1' : find_field (hdr_for p) fld = Some g) by (unfold hdr_for; rewrite (ft_find _ _ _ HT); auto).
    rewrite (inv_def _ _ _ _ (e_inv _ _ _ _ _ _ _ E) G1'), Eft. reflexivity. }
  assert (Hgt : last_given (snd p) "token" = None).
  { destruct (last_given (snd p) "token") as [s|] eqn:Eg; [|auto]. destruct (HA _ _ (last_given_in _ _ _ Eg)) as [_ [o [w [x [Q _]]]]]. discriminate Q. }
  destruct (G _ (or_introl eq_refl) Hgt) as [tok [T1 [T2 T3]]]. destruct (G _ (or_intror eq_refl) Hg) as [tkl [K1 [K2 K3]]].
  pose proof (e_run _ _ _ _ _ _ _ E) as HR. change (h_fill HDR_COAP) with FL_coap in HR. cbn [run_fill] in HR. unfold coap_fill_defaults in HR. mid HR. cbn [bind] in HR.
  unfold fget in HR. rewrite K1, T1 in HR. cbn [bind] in HR. rewrite K2, T2 in HR. apply ret_inj in HR. apply mid_inj in HR.
  pose proof (e_inv _ _ _ _ _ _ _ E) as I. destruct (coap_shape _ I) as [x [Eh [W1 [W2 W3]]]].
  destruct (seq_at_place (hdr_for p) "tkl" 4 4) as [P1 [P2 [P3 P4]]].
  { apply (i_var _ _ I eq_refl). }
  { rewrite Eh. reflexivity. }
  pose proof (i_var _ _ I eq_refl) as [_ [K _]].
  destruct (placed _ _ _ _ (hdr_for p) h' "tkl" 4 4 tkl false (e_buf _ _ _ _ _ _ _ E) (e_wf _ _ _ _ _ _ _ E) (e_dst _ _ _ _ _ _ _ E)) as [_ Q]; auto; try lia.
  - rewrite <- HR. apply keeps_refl.
  - rewrite <- HR. apply refl_settled.
  - rewrite (Q K2 eq_refl), K3. reflexivity.
Qed.

(** *** Bits without a name *)
Lemma emitted_hidden : forall k p m off w, nth_error hs k = Some p -> format_named (fst p) m -> place m "-" = Some (off, w) ->
  bits_at hs b k off w = not_given hs ps b k (fst p) "-".
Proof.
  intros k p m off w Hk Hn HP. destruct (index_ok k p Hk) as [Hlt Hp']. rewrite bits_header by lia.
  pose proof hidden_checked as HC. rewrite forallb_forall in HC. specialize (HC _ Hn). unfold hid_chk in HC. cbn [fst snd] in HC. rewrite HP in HC.
  destruct (find_tmpl (fst p)) as [t|] eqn:Et; [|discriminate]. rewrite !andb_true_iff in HC. destruct HC as [[[[[[[[C1 C2] C3] C4] C5] C6] C7] C8] C9].
  apply negb_true_iff in C5. unfold not_given. destruct (length_field (fst p) "-"); [discriminate|]. destruct (type_field (fst p) "-"); [discriminate|].
  change (String.eqb "-" "chksum") with false. cbv iota. apply Z.eqb_eq in C8. rewrite C8. clear C8 C9.
  apply existsb_exists in C1. destruct C1 as [j [_ C1]]. rewrite andb_true_iff in C1. destruct C1 as [C1 C8]. destruct (nth_error (h_fields t) j) as [g|] eqn:Ej; [|discriminate].
  rewrite andb_true_iff in C8. destruct C8 as [C8 C9]. apply negb_true_iff, not_first in C8.
  destruct (written_fits p Hp') as [m2 [t2 [HT HA]]]. assert (t2 = t) by (pose proof (ft_find _ _ _ HT); congruence). subst t2.
  destruct (named_emitting _ _ _ _ _ _ t HS (named_at k p Hk) Et) as [h [h' [E [_ Hk2]]]].
  rewrite (stack_at k p Hk) in Hk2. apply some_inj in Hk2. subst h.
  destruct (fold_assign_nth (snd p) t j g Ej) as [g2 [G1 [_ [_ [_ G2]]]]]. rewrite (G2 C8) in G1. clear g2 G2.
  assert (G1' : nth_error (h_fields (hdr_for p)) j = Some g) by (unfold hdr_for; rewrite Et; exact G1).
  destruct (emitting_tail _ _ _ _ _ _ _ E) as [WhB [WB [Wh Wh']]]. pose proof (e_run _ _ _ _ _ _ _ E) as HR. pose proof (e_inv _ _ _ _ _ _ _ E) as I.
  destruct (inv_layout _ _ I C5) as [N1 [N2 N3]].
  assert (C8' : ~ first_named (h_fields (hdr_for p)) j (f_name g)).
  { intros HF. apply C8. intros i x Hi Hx Ex. assert (nth_error (names (h_fields (hdr_for p))) i = Some (f_name x)) as Q by (rewrite N1; unfold names; rewrite nth_error_map, Hx; reflexivity).
    unfold names in Q. rewrite nth_error_map in Q. destruct (nth_error (h_fields (hdr_for p)) i) as [y|] eqn:Ey; [|discriminate]. cbn [option_map] in Q. apply some_inj in Q. apply (HF i y Hi Ey). congruence. }
  assert (G3 : nth_error (h_fields h') j = Some g).
  { destruct (h_fill t); try discriminate C7; cbn [run_fill] in HR.
    - apply ret_inj in HR. apply mid_inj in HR. subst h'. exact G1'.
    - apply ptp_eff in HR; [|auto|destruct Wh; lia]. subst h'. unfold setd. destruct (given (hdr_for p) "hdr-messageLength"); [exact G1'|].
      unfold put, fmod. cbn [set_fields h_fields]. apply (nth_mod_first "hdr-messageLength" _ _ _ _ G1').
      destruct (String.eqb_spec (f_name g) "hdr-messageLength") as [Eg|Eg]; [right; rewrite <- Eg; exact C8'|auto]. }
  destruct (em_layout _ _ _ _ _ _ _ E C6 C5) as [L1 [L2 L3]]. rewrite <- L2 in C1. destruct (lone_chk_spec _ _ _ _ C1) as [fl [F1 [F2 F3]]].
  assert (fl = g) by (destruct F1; congruence). subst fl. unfold field_at. rewrite <- F2, <- F3.
  rewrite (emitted_lone _ _ _ _ _ _ _ (e_buf _ _ _ _ _ _ _ E) (e_wf _ _ _ _ _ _ _ E) (e_dst _ _ _ _ _ _ _ E) F1) by (unfold within; rewrite F2, F3, L3; lia).
  unfold field_data. destruct (f_val g); [discriminate|]. destruct (f_def g); [discriminate|reflexivity].
Qed.

Lemma emitted_frame : the_frame hs ps b.
Proof.
  split; [exact HI|]. intros k p m fld off w Hk Hn HP Hg.
  destruct (String.eqb_spec fld "-") as [->|Hne]; [eapply emitted_hidden; eauto|]. unfold not_given.
  destruct (length_field (fst p) fld) as [u|] eqn:El; [eapply emitted_length_field; eauto|].
  destruct (type_field (fst p) fld) as [[w' d]|] eqn:Ety; [eapply emitted_type_field; eauto|].
  destruct (String.eqb_spec fld "chksum") as [->|Hnc]; [eapply emitted_chksum; eauto|].
  destruct (is_worked_out (fst p) fld) eqn:Ew.
  - pose proof others_checked as HC. rewrite forallb_forall in HC. specialize (HC _ Hn). unfold other_chk in HC. cbn [fst snd] in HC. rewrite forallb_forall in HC.
    destruct (place_in _ _ _ _ _ HP) as [q Hq]. specialize (HC _ Hq). cbn [fst] in HC. rewrite Ew, El, Ety in HC. apply String.eqb_neq in Hnc. rewrite Hnc in HC. cbn [negb orb] in HC. rewrite orb_false_r, andb_true_iff, !String.eqb_eq in HC.
    destruct HC as [E1 ->]. rewrite E1. change (preset_value "coap" "tkl") with 0. eapply emitted_tkl; eauto.
  - pose proof (fi_fields _ _ _ HI k p Hk m fld off w Hn Hne HP) as H. rewrite Hg in H. auto.
Qed.
End Emitted.

(** *** From the words *)
Lemma exact_whole : forall hs ps, Forall well_written hs -> Forall piece_ok ps -> Z.of_nat (length (text hs ps)) <= 100 -> Z.of_nat (length (payload ps)) <= 110000 ->
  exists f f' b, argc_frame (text hs ps) = Ret (Some (length (text hs ps), f)) /\ serialised (text hs ps) f f' b /\ fr_has_mask f = false /\ the_frame hs ps b.
Proof.
  intros hs ps Hw Hok Hl Hp. destruct (whole hs ps Hw Hok Hl ltac:(lia)) as [f [f' [b [HA [HS [HM [HI HH]]]]]]]. exists f, f', b. split; [auto|]. split; [auto|]. split; [auto|].
  rewrite text_accepted in HA by (auto; unfold size_limit; lia). apply ret_inj in HA. apply some_inj in HA. apply pair_inj in HA. destruct HA as [_ HA]. subst f.
  eapply emitted_frame; eauto.
Qed.

Lemma exact_printed : forall hs ps e b, Forall well_written hs -> Forall piece_ok ps -> text hs ps <> [] ->
  Z.of_nat (length (text hs ps)) <= 100 -> Z.of_nat (length (payload ps)) <= 110000 ->
  (the_frame hs ps b <-> argc_cmds ("hex"%string :: text hs ps) e = Ret (0, [EvHex b None])).
Proof.
  intros hs ps e b Hw Hok Hn Hl Hp. destruct (exact_whole hs ps Hw Hok Hl Hp) as [f [f' [c [HA [HS [HM HF]]]]]].
  rewrite (text_printed hs ps e f f' c) by auto. split; intros H.
  - rewrite (two_same hs ps b c Hw H HF). reflexivity.
  - apply ret_inj in H. apply pair_inj in H. destruct H as [_ H]. assert (c = b) by congruence. subst c. exact HF.
Qed.

Lemma exact_command : forall hs ps b, Forall well_written hs -> Forall piece_ok ps -> text hs ps <> [] ->
  Z.of_nat (length (text hs ps)) <= 100 -> Z.of_nat (length (payload ps)) <= 110000 ->
  (the_frame hs ps b <-> exists f, a_frame (text hs ps) f b None).
Proof.
  intros hs ps b Hw Hok Hn Hl Hp. destruct (exact_whole hs ps Hw Hok Hl Hp) as [f [f' [c [HA [HS [HM HF]]]]]].
  pose proof (text_command hs ps f f' c Hn HA HS HM) as HC. split.
  - intros H. exists f'. rewrite (two_same hs ps b c Hw H HF). exact HC.
  - intros [g [_ [g0 [H1 [H2 _]]]]]. destruct HC as [_ [f0 [H3 [H4 _]]]]. assert (g0 = f0) by congruence. subst g0. assert (c = b) by congruence. subst c. exact HF.
Qed.

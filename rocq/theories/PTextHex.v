(** Proofs about hexadecimal and binary byte strings: C03, C08, C09, C10. *)

From Verif Require Export PTextNum.

Lemma lor_disjoint : forall a b n, 0 <= n -> 0 <= b < 2 ^ n -> Z.lor (a * 2 ^ n) b = a * 2 ^ n + b.
Proof.
  intros a b n Hn Hb. rewrite Z.add_nocarry_lxor.
  - rewrite Z.lxor_lor; auto.
    apply Z.bits_inj'. intros m Hm. rewrite Z.land_spec, Z.bits_0, <- Z.shiftl_mul_pow2 by lia.
    destruct (Z_lt_dec m n).
    + rewrite Z.shiftl_spec_low by lia. auto.
    + assert (Z.testbit b m = false).
      { destruct (Z.eq_dec b 0) as [->|]; [apply Z.bits_0|].
        apply Z.bits_above_log2; [lia|]. assert (Z.log2 b < n) by (apply Z.log2_lt_pow2; lia). lia. }
      rewrite H. apply andb_false_r.
  - apply Z.bits_inj'. intros m Hm. rewrite Z.land_spec, Z.bits_0, <- Z.shiftl_mul_pow2 by lia.
    destruct (Z_lt_dec m n).
    + rewrite Z.shiftl_spec_low by lia. auto.
    + assert (Z.testbit b m = false).
      { destruct (Z.eq_dec b 0) as [->|]; [apply Z.bits_0|].
        apply Z.bits_above_log2; [lia|]. assert (Z.log2 b < n) by (apply Z.log2_lt_pow2; lia). lia. }
      rewrite H. apply andb_false_r.
Qed.

Lemma lor_16 : forall h l, 0 <= l < 16 -> Z.lor (16 * h) l = 16 * h + l.
Proof. intros. replace (16 * h) with (h * 2 ^ 4) by lia. apply lor_disjoint; lia. Qed.

Lemma nth_mid : forall (a b : buf) x, nth (length a) (a ++ x :: b) 0 = x.
Proof. intros. rewrite app_nth2 by lia. rewrite Nat.sub_diag. auto. Qed.

Lemma bget_mid : forall (a b : buf) x p, p = zlen a -> bget (a ++ x :: b) p = Ret x.
Proof.
  intros. subst. rewrite bget_ok.
  - unfold zlen. rewrite Nat2Z.id, nth_mid. auto.
  - rewrite zlen_app, zlen_cons. pose proof (zlen_nonneg _ a). pose proof (zlen_nonneg _ b). lia.
Qed.

Lemma bput_mid : forall (a b : buf) x v p, p = zlen a -> bput (a ++ x :: b) p v = Ret (a ++ v :: b).
Proof.
  intros. subst. rewrite bput_ok.
  - unfold zlen. rewrite Nat2Z.id, upd_mid. auto.
  - rewrite zlen_app, zlen_cons. pose proof (zlen_nonneg _ a). pose proof (zlen_nonneg _ b). lia.
Qed.

Lemma u8_small : forall x, 0 <= x < 256 -> u8 x = x.
Proof. intros. apply Z.mod_small. auto. Qed.

Lemma hexdump_bytes : forall d s, hexdump d s -> bytes_ok d.
Proof.
  intros d s H. induction H; auto; [constructor|].
  constructor; auto. apply digit_range in H. apply digit_range in H0. unfold byte_ok. lia.
Qed.

Lemma sep_delim : forall c, separator c -> hexval c = None /\ is_delim c = true.
Proof. intros c [H|[H|[H|[H|[]]]]]; subst; split; reflexivity. Qed.

Lemma nib_scan_dump : forall d s, hexdump d s -> forall cnt o a, cnt mod 2 = 0 ->
  nib_scan s cnt o a = (cnt + 2 * zlen d, o, a).
Proof.
  intros d s H. induction H; intros cnt o a Hc.
  - cbn [nib_scan]. rewrite zlen_nil. replace (cnt mod 2 =? 0) with true by lia.
    cbn [negb]. rewrite orb_false_r. f_equal. f_equal. lia.
  - cbn [nib_scan]. destruct (sep_delim c H) as [-> ->].
    replace (cnt mod 2 =? 0) with true by lia. cbn [negb]. rewrite orb_false_r. apply IHhexdump; auto.
  - cbn [nib_scan]. rewrite digit_hexval in *. rewrite H, H0. rewrite IHhexdump.
    + rewrite zlen_cons. f_equal. f_equal. lia.
    + lia.
Qed.

Lemma nib_fill_dump : forall d s, hexdump d s -> forall pre post cnt p, cnt mod 2 = 0 -> p = zlen pre ->
  nib_fill s (pre ++ repeat 0 (length d) ++ post) p cnt = Ret (pre ++ d ++ post).
Proof.
  intros d s H. induction H; intros pre post cnt p Hc Hp.
  - reflexivity.
  - cbn [nib_fill]. destruct (sep_delim c H) as [-> _]. auto.
  - pose proof (digit_range _ _ H) as Hh. pose proof (digit_range _ _ H0) as Hl.
    rewrite digit_hexval in *.
    cbn [nib_fill length repeat app]. rewrite H, H0.
    rewrite bget_mid by auto. cbn [bind]. rewrite bput_mid by auto. cbn [bind].
    replace ((cnt + 1) mod 2 =? 1) with true by lia.
    rewrite bget_mid by auto. cbn [bind]. rewrite bput_mid by auto. cbn [bind].
    rewrite bget_mid by auto. cbn [bind]. rewrite bput_mid by auto. cbn [bind].
    replace ((cnt + 1 + 1) mod 2 =? 1) with false by lia.
    rewrite Z.lor_0_l. rewrite (u8_small h) by lia. rewrite Z.shiftl_mul_pow2 by lia.
    rewrite (u8_small (h * 2 ^ 4)) by lia. rewrite lor_disjoint by lia.
    rewrite (u8_small (h * 2 ^ 4 + l)) by lia.
    replace (h * 2 ^ 4 + l) with (16 * h + l) by lia.
    specialize (IHhexdump (pre ++ [16 * h + l]) post (cnt + 1 + 1) (p + 1)).
    rewrite <- !app_assoc in IHhexdump. cbn [app] in IHhexdump. apply IHhexdump; [lia|].
    rewrite zlen_app, zlen_cons, zlen_nil. lia.
Qed.

Lemma parse_var_hex_dump : forall d s, hexdump d s -> d <> [] ->
  parse_var_bytes_hex s 0 = Ret (Some d).
Proof.
  intros d s H Hne. unfold parse_var_bytes_hex. rewrite (nib_scan_dump _ _ H) by reflexivity.
  assert (0 < zlen d) by (destruct d; [congruence|rewrite zlen_cons; pose proof (zlen_nonneg _ d); lia]).
  replace (0 + 2 * zlen d =? 0) with false by lia. cbn [orb].
  replace ((0 + 2 * zlen d) / 2) with (zlen d) by lia.
  replace (Z.max (zlen d) 0) with (zlen d) by lia.
  pose proof (nib_fill_dump _ _ H [] [] 0 0 eq_refl eq_refl) as Hf. cbn [app] in Hf.
  rewrite !app_nil_r in Hf. unfold balloc. unfold zlen at 1. rewrite Nat2Z.id, Hf. reflexivity.
Qed.

(** With a minimum size the value is left aligned and padded with zeros. *)
Lemma parse_var_hex_dump_min : forall d s m, hexdump d s -> d <> [] -> 0 <= m ->
  parse_var_bytes_hex s m = Ret (Some (d ++ repeat 0 (Z.to_nat m - length d))).
Proof.
  intros d s m H Hne Hm. unfold parse_var_bytes_hex. rewrite (nib_scan_dump _ _ H) by reflexivity.
  assert (0 < zlen d) by (destruct d; [congruence|rewrite zlen_cons; pose proof (zlen_nonneg _ d); lia]).
  replace (0 + 2 * zlen d =? 0) with false by lia. cbn [orb].
  replace ((0 + 2 * zlen d) / 2) with (zlen d) by lia.
  pose proof (nib_fill_dump _ _ H [] (repeat 0 (Z.to_nat m - length d)) 0 0 eq_refl eq_refl) as Hf. cbn [app] in Hf.
  unfold balloc. replace (Z.to_nat (Z.max (zlen d) m)) with (length d + (Z.to_nat m - length d))%nat by (unfold zlen; lia).
  rewrite repeat_app, Hf. reflexivity.
Qed.

(** *** Length and range of what the fillers produce *)

Lemma nib_fill_inv : forall s b p cnt b', nib_fill s b p cnt = Ret b' -> bytes_ok b ->
  length b' = length b /\ bytes_ok b'.
Proof.
  induction s as [|c s IH]; intros b p cnt b' H Hb; cbn [nib_fill] in H.
  - inversion H; subst. auto.
  - destruct (hexval c) as [t|].
    + binv H. binv H. apply bput_inv in E0. destruct E0 as [_ ->].
      assert (Hb1 : bytes_ok (upd b (Z.to_nat p) (u8 (Z.lor a t)))) by (apply upd_Forall; auto; apply u8_byte).
      destruct ((cnt + 1) mod 2 =? 1).
      * binv H. binv H. apply bput_inv in E1. destruct E1 as [_ ->].
        apply IH in H; [|apply upd_Forall; auto; apply u8_byte]. rewrite !upd_length in H. auto.
      * apply IH in H; auto. rewrite !upd_length in H. auto.
    + eauto.
Qed.

Lemma bin_fill_inv : forall s b p cnt b', bin_fill s b p cnt = Ret b' -> bytes_ok b ->
  length b' = length b /\ bytes_ok b'.
Proof.
  induction s as [|c s IH]; intros b p cnt b' H Hb; cbn [bin_fill] in H.
  - inversion H; subst. auto.
  - destruct (is_bit c).
    + binv H. binv H. apply bput_inv in E0. destruct E0 as [_ ->].
      assert (Hb1 : bytes_ok (upd b (Z.to_nat p) (u8 (Z.lor a (code c - 48))))) by (apply upd_Forall; auto; apply u8_byte).
      destruct ((cnt + 1) mod 8 =? 0).
      * apply IH in H; auto. rewrite !upd_length in H. auto.
      * binv H. binv H. apply bput_inv in E1. destruct E1 as [_ ->].
        apply IH in H; [|apply upd_Forall; auto; apply u8_byte]. rewrite !upd_length in H. auto.
    + eauto.
Qed.

Lemma parse_bytes_hex_inv : forall s k b, 0 <= k -> parse_bytes_hex s k = Ret (Some b) ->
  zlen b = k /\ bytes_ok b.
Proof.
  intros s k b Hk H. unfold parse_bytes_hex in H. destruct (nib_scan s 0 false false) as [[cnt o] al].
  destruct (o || (cnt =? 0)); [discriminate|]. destruct al; [discriminate|].
  binv H. inversion H; subst. apply nib_fill_inv in E; [|apply balloc_bytes].
  destruct E as [E ?]. split; auto. unfold zlen. rewrite E. fold (zlen (balloc k)). apply zlen_balloc; auto.
Qed.

Lemma parse_bytes_binary_inv : forall s k b, 0 <= k -> parse_bytes_binary s k = Ret (Some b) ->
  zlen b = k /\ bytes_ok b.
Proof.
  intros s k b Hk H. unfold parse_bytes_binary in H. destruct (bin_scan s 0 false) as [cnt o].
  destruct (o || (cnt =? 0)); [discriminate|]. destruct (negb (cnt mod 8 =? 0)); [discriminate|].
  binv H. inversion H; subst. apply bin_fill_inv in E; [|apply balloc_bytes].
  destruct E as [E ?]. split; auto. unfold zlen. rewrite E. fold (zlen (balloc k)). apply zlen_balloc; auto.
Qed.

(** *** Digit strings as dumps *)

Lemma digits_pairs : forall n s ds, (length ds = 2 * n)%nat -> digits_of 16 s ds ->
  exists d, hexdump d s /\ length d = n /\ positional 256 d = positional 16 ds.
Proof.
  induction n as [|n IH]; intros s ds Hl H.
  - destruct ds; [|cbn in Hl; lia]. inversion H. destruct s; [|discriminate].
    exists []. repeat split; constructor.
  - destruct ds as [|d1 [|d2 ds]]; cbn in Hl; try lia.
    destruct s as [|c1 [|c2 s]]; [inversion H|inversion H; subst; inversion H5|].
    inversion H as [|? ? ? ? H1 H2]; subst. inversion H2 as [|? ? ? ? H3 H4]; subst.
    destruct (IH s ds) as [d [Hd [Hn Hv]]]; auto; [lia|].
    exists (16 * d1 + d2 :: d). repeat split.
    + destruct H1, H3. apply hd_byte; auto.
    + cbn. auto.
    + cbn [positional length]. rewrite Hv.
      replace (length ds) with (2 * n)%nat by lia. replace (length d) with n.
      rewrite Nat2Z.inj_succ, Z.pow_succ_r by lia.
      replace (16 ^ Z.of_nat (2 * n)) with (256 ^ Z.of_nat n).
      * lia.
      * replace 256 with (16 ^ 2) by reflexivity. rewrite <- Z.pow_mul_r by lia. f_equal. lia.
Qed.

Lemma hexdump_len_nonneg : forall d s, hexdump d s -> d = [] \/ 0 < zlen d.
Proof. intros. destruct d; auto. right. rewrite zlen_cons. pose proof (zlen_nonneg _ d). lia. Qed.

(** *** Binary digit strings *)

Lemma bin_scan_digits : forall s ds cnt o, digits_of 2 s ds ->
  bin_scan s cnt o = (cnt + zlen ds, o).
Proof.
  induction s as [|c s IH]; intros ds cnt o H; inversion H; subst; cbn [bin_scan].
  - rewrite zlen_nil. f_equal; lia.
  - destruct H2 as [Hd Hlt]. pose proof (digit_range _ _ Hd).
    replace (is_bit c) with true.
    + rewrite (IH l') by auto. rewrite zlen_cons. f_equal; lia.
    + symmetry. rewrite digit_hexval in Hd. unfold is_bit, hexval, in_range in *.
      destruct ((48 <=? code c) && (code c <=? 57)) eqn:E; [inversion Hd; lia|].
      destruct ((97 <=? code c) && (code c <=? 102)) eqn:E2; [inversion Hd; lia|].
      destruct ((65 <=? code c) && (code c <=? 70)) eqn:E3; [inversion Hd; lia|discriminate].
Qed.

Lemma bit_digit : forall c d, digit c = Some d -> d < 2 -> is_bit c = true /\ code c - 48 = d.
Proof.
  intros c d Hd Hlt. pose proof (digit_range _ _ Hd).
  rewrite digit_hexval in Hd. unfold is_bit, hexval, in_range in *.
  destruct ((48 <=? code c) && (code c <=? 57)) eqn:E; [inversion Hd; lia|].
  destruct ((97 <=? code c) && (code c <=? 102)) eqn:E2; [inversion Hd; lia|].
  destruct ((65 <=? code c) && (code c <=? 70)) eqn:E3; [inversion Hd; lia|discriminate].
Qed.

Definition cells (n : nat) (x : Z) : buf := match n with O => [] | S k => x :: repeat 0 k end.

Lemma bin_fill_spec : forall s ds pre post v j cnt p n,
  digits_of 2 s ds -> 0 <= j < 8 -> cnt mod 8 = j -> j + zlen ds = 8 * Z.of_nat n ->
  0 <= v < 2 ^ j -> p = zlen pre ->
  exists mid, bin_fill s (pre ++ cells n (2 * v) ++ post) p cnt = Ret (pre ++ mid ++ post)
    /\ length mid = n /\ bytes_ok mid /\ be_val mid = v * 2 ^ zlen ds + positional 2 ds.
Proof.
  induction s as [|c s IH]; intros ds pre post v j cnt p n H Hj Hc Hn Hv Hp; inversion H; subst.
  - rewrite zlen_nil in Hn. assert (n = O) by lia. subst. assert (cnt mod 8 = 0) by lia.
    exists []. cbn. repeat split; auto; [constructor|]. rewrite H0 in Hv. cbn in Hv. lia.
  - destruct H2 as [Hd Hlt]. pose proof (digit_range _ _ Hd) as Hr.
    destruct (bit_digit _ _ Hd Hlt) as [Hb Hcode]. rewrite zlen_cons in Hn.
    pose proof (zlen_nonneg _ l') as Hz.
    destruct n as [|n]; [lia|]. cbn [cells bin_fill]. rewrite Hb.
    change ((2 * v :: repeat 0 n) ++ post) with (2 * v :: (repeat 0 n ++ post)).
    rewrite bget_mid by auto. cbn [bind]. rewrite bput_mid by auto. cbn [bind].
    rewrite Hcode. assert (Hv7 : v < 2 ^ 7).
    { assert (2 ^ (cnt mod 8) <= 2 ^ 7) by (apply Z.pow_le_mono_r; lia). lia. }
    assert (Hlor : Z.lor (2 * v) y = 2 * v + y).
    { replace (2 * v) with (v * 2 ^ 1) by lia. apply lor_disjoint; lia. }
    rewrite Hlor. rewrite u8_small by lia.
    assert (Hp2 : 2 ^ (1 + zlen l') = 2 * 2 ^ zlen l') by (rewrite Z.pow_add_r by lia; lia).
    destruct ((cnt + 1) mod 8 =? 0) eqn:E8.
    + destruct (IH l' (pre ++ [2 * v + y]) post 0 0 (cnt + 1) (zlen pre + 1) n) as [mid [H1 [H2 [H3 H6]]]]; auto; try lia.
      * rewrite zlen_app, zlen_cons, zlen_nil. lia.
      * exists (2 * v + y :: mid). 
        replace (cells n (2 * 0)) with (repeat 0 n) in H1 by (destruct n; reflexivity).
        rewrite <- !app_assoc in H1. cbn [app] in H1. rewrite H1. repeat split.
        -- cbn. auto.
        -- constructor; auto. unfold byte_ok. lia.
        -- rewrite be_val_cons, H6, zlen_cons, Hp2.
           assert (Hlen : zlen l' = 8 * zlen mid) by (unfold zlen in *; lia).
           replace (256 ^ zlen mid) with (2 ^ zlen l').
           ++ cbn [positional]. fold (zlen l'). lia.
           ++ rewrite Hlen. replace 256 with (2 ^ 8) by reflexivity.
              rewrite Z.pow_mul_r; auto; lia.
    + rewrite bget_mid by auto. cbn [bind]. rewrite bput_mid by auto. cbn [bind].
      rewrite Z.shiftl_mul_pow2 by lia.
      assert (Hj7 : cnt mod 8 < 7) by lia.
      assert (Hs : 2 ^ (cnt mod 8 + 1) = 2 * 2 ^ (cnt mod 8)) by (rewrite Z.pow_add_r by lia; lia).
      assert (Hs2 : 2 ^ (cnt mod 8 + 1) <= 2 ^ 7) by (apply Z.pow_le_mono_r; lia).
      rewrite u8_small by lia.
      destruct (IH l' pre post (2 * v + y) (cnt mod 8 + 1) (cnt + 1) (zlen pre) (S n)) as [mid [H1 [H2 [H3 H6]]]]; auto; try lia.
      exists mid. replace ((2 * v + y) * 2 ^ 1) with (2 * (2 * v + y)) by lia.
      cbn [cells] in H1. change ((2 * (2 * v + y) :: repeat 0 n) ++ post) with (2 * (2 * v + y) :: (repeat 0 n ++ post)) in H1.
      rewrite H1. repeat split; auto. rewrite H6, zlen_cons, Hp2. cbn [positional]. fold (zlen l'). lia.
Qed.

(** *** C08: literals for fields wider than 8 bytes *)

Lemma base_of_hex : forall p d ds, digits_of (radix_of p) d ds -> base_of p (flags_of d) = radix_of p.
Proof. exact base_of_num. Qed.

Lemma zlen_Z : forall A (l : list A), Z.to_nat (zlen l) = length l.
Proof. intros. unfold zlen. lia. Qed.

Lemma wide_hex : forall body ds k, 8 < k -> digits_of 16 body ds ->
  (0 < length ds)%nat -> (Nat.Even (length ds)) -> Z.of_nat (length ds) <= 2 * k ->
  exists l, parse_bytes ("0x" ++ body) k = Ret (Some l) /\ big_endian k (positional 16 ds) l.
Proof.
  intros body ds k Hk Hds Hpos [n Hn] Hle.
  destruct (digits_pairs n body ds Hn Hds) as [d [Hd [Hl Hv]]].
  set (z := Z.to_nat (k - zlen d)).
  assert (Hz : (z + length d)%nat = Z.to_nat k) by (unfold z, zlen; lia).
  exists (repeat 0 z ++ d).
  assert (Hb : bytes_ok (repeat 0 z ++ d)).
  { apply bytes_ok_app. split; [apply bytes_ok_repeat; unfold byte_ok; lia|eapply hexdump_bytes; eauto]. }
  assert (Hval : be_val (repeat 0 z ++ d) = positional 16 ds).
  { rewrite be_val_app, be_val_repeat0, <- positional_be_val, Hv. lia. }
  assert (Hlen : zlen (repeat 0 z ++ d) = k).
  { rewrite zlen_app, zlen_repeat. unfold zlen in *. lia. }
  split.
  - unfold parse_bytes. pose proof (split_prefix_num (Some P0x) body ds Hds) as Hsp. cbn [radix_of radix_prefix Z.eqb Pos.eqb] in Hsp.
    rewrite Hsp. pose proof (base_of_num (Some P0x) body ds Hds) as Hbo. cbn [radix_of] in Hbo. rewrite Hbo.
    replace (k <=? 8) with false by lia. cbn [Z.eqb Pos.eqb negb andb].
    unfold parse_bytes_hex. rewrite (nib_scan_dump _ _ Hd) by reflexivity.
    assert (Hzd : zlen d = Z.of_nat n) by (unfold zlen; lia).
    replace (0 + 2 * zlen d =? 0) with false by lia. cbn [orb].
    replace ((0 + 2 * zlen d) / 2) with (zlen d) by lia.
    pose proof (nib_fill_dump _ _ Hd (repeat 0 z) [] 0 (k - zlen d) eq_refl) as Hf.
    rewrite !app_nil_r in Hf. unfold balloc. rewrite <- Hz, repeat_app.
    rewrite Hf; auto. rewrite zlen_repeat. unfold z, zlen in *. lia.
  - split; [exact Hlen|]. split; [exact Hb|]. rewrite positional_be_val, Hval. symmetry. apply Z.mod_small.
    rewrite <- Hval. rewrite <- Hlen. apply be_val_bound; auto.
Qed.

Lemma wide_bin : forall body ds k, 8 < k -> digits_of 2 body ds ->
  (0 < length ds)%nat -> (Z.of_nat (length ds)) mod 8 = 0 -> Z.of_nat (length ds) <= 8 * k ->
  exists l, parse_bytes ("0b" ++ body) k = Ret (Some l) /\ big_endian k (positional 2 ds) l.
Proof.
  intros body ds k Hk Hds Hpos Hmod Hle.
  set (n := Z.to_nat (zlen ds / 8)). assert (Hn : zlen ds = 8 * Z.of_nat n) by (unfold n, zlen; lia).
  set (z := Z.to_nat (k - Z.of_nat n)).
  assert (Hz : (z + n)%nat = Z.to_nat k) by (unfold z, zlen in *; lia).
  destruct (bin_fill_spec body ds (repeat 0 z) [] 0 0 0 (k - Z.of_nat n) n) as [mid [H1 [H2 [H3 H4]]]];
    auto; try lia.
  { rewrite zlen_repeat. unfold z, zlen in *. lia. }
  rewrite !app_nil_r in H1. replace (cells n (2 * 0)) with (repeat 0 n) in H1 by (destruct n; reflexivity).
  exists (repeat 0 z ++ mid).
  assert (Hb : bytes_ok (repeat 0 z ++ mid)).
  { apply bytes_ok_app. split; [apply bytes_ok_repeat; unfold byte_ok; lia|auto]. }
  assert (Hval : be_val (repeat 0 z ++ mid) = positional 2 ds).
  { rewrite be_val_app, be_val_repeat0, H4. lia. }
  assert (Hlen : zlen (repeat 0 z ++ mid) = k).
  { rewrite zlen_app, zlen_repeat. unfold zlen in *. lia. }
  split.
  - unfold parse_bytes. pose proof (split_prefix_num (Some P0b) body ds Hds) as Hsp. cbn [radix_of radix_prefix Z.eqb Pos.eqb] in Hsp.
    rewrite Hsp. pose proof (base_of_num (Some P0b) body ds Hds) as Hbo. cbn [radix_of] in Hbo. rewrite Hbo.
    replace (k <=? 8) with false by lia. cbn [Z.eqb Pos.eqb negb andb].
    unfold parse_bytes_binary. rewrite (bin_scan_digits _ ds) by auto.
    rewrite Z.add_0_l. replace (zlen ds =? 0) with false by (unfold zlen in *; lia). cbn [orb].
    replace (zlen ds mod 8 =? 0) with true by (unfold zlen in *; lia). cbn [negb].
    replace (zlen ds / 8) with (Z.of_nat n) by (unfold n, zlen in *; lia).
    unfold balloc. rewrite <- Hz, repeat_app, H1. reflexivity.
  - split; [exact Hlen|]. split; [exact Hb|]. rewrite positional_be_val, Hval. symmetry. apply Z.mod_small.
    rewrite <- Hval. rewrite <- Hlen. apply be_val_bound; auto.
Qed.

(** *** C09 *)

Lemma hex_str_dump : forall b, bytes_ok b -> hexdump b (hex_str b).
Proof.
  induction b as [|x b IH]; intros H; cbn.
  - constructor.
  - inversion H as [|? ? Hx Hb]; subst. unfold byte_ok in Hx.
    replace x with (16 * (x / 16) + x mod 16) at 1 by lia.
    apply hd_byte; auto; rewrite digit_hexval; apply hexval_digit; lia.
Qed.

(** *** C10 *)

Lemma map_const_repeat : forall A B (x : B) (l : list A) , map (fun _ => x) l = repeat x (length l).
Proof. induction l; cbn; auto. rewrite IHl. auto. Qed.

Lemma text_bytes_str : forall s, text_bytes s = str_bytes s.
Proof.
  induction s as [|c s IH]; cbn; auto. unfold text_bytes in IH. f_equal; auto.
  unfold code. unfold nat_of_ascii. apply N_nat_Z.
Qed.

Lemma cnt_pattern_spec : forall n k, cnt_pattern n (k mod 256) =
  map (fun i => (k + Z.of_nat i) mod 256) (seq 0 n).
Proof.
  induction n as [|n IH]; intros k; cbn [cnt_pattern seq map]; auto.
  f_equal; [f_equal; lia|]. unfold u8.
  replace ((k mod 256 + 1) mod 256) with ((k + 1) mod 256) by lia.
  rewrite IH. rewrite <- seq_shift, map_map. apply map_ext. intros a. f_equal. lia.
Qed.

Lemma number_radix : forall s n, number s n -> exists p d, s = (radix_prefix (radix_of p) ++ d)%string /\ denotes (radix_of p) d n.
Proof.
  intros s n [base [body [Hr [Hs Hd]]]]. apply is_radix_of in Hr. destruct Hr as [p ->]. eauto.
Qed.

Lemma parse_uint32_number : forall s n, number s n -> 0 <= n < 2 ^ 32 -> parse_uint32 s = Ret (Some n).
Proof.
  intros s n H Hn. apply number_radix in H. destruct H as [p [d [-> Hd]]].
  unfold parse_uint32. rewrite (parse_bytes_num p d n 4) by (auto; lia). cbn [bind].
  assert (Hl : length (be_bytes (Z.to_nat 4) n) = 4%nat) by apply be_bytes_length.
  unfold zlen. rewrite Hl. replace (Z.of_nat 4 <? 4) with false by lia.
  rewrite firstn_all2 by lia. rewrite be_bytes_val.
  rewrite Z.mod_small by (cbn; lia). auto.
Qed.

Lemma parse_uint8_number : forall s n, number s n -> 0 <= n < 2 ^ 8 -> parse_uint8 s = Ret (Some n).
Proof.
  intros s n H Hn. apply number_radix in H. destruct H as [p [d [-> Hd]]].
  unfold parse_uint8. rewrite (parse_bytes_num p d n 1) by (auto; lia). cbn [bind].
  change (Z.to_nat 1) with 1%nat. cbn [be_bytes app]. rewrite Z.mod_small by lia. reflexivity.
Qed.

Lemma piece_step : forall p rest, piece_ok p ->
  parse_var_bytes_ (piece_words p ++ rest) = Ret (VSome (length (piece_words p)) (piece_data p)).
Proof.
  intros [t d|t|t|ct vt c v|pt ct c] rest H; cbn [piece_words app piece_ok piece_data length] in *;
    unfold parse_var_bytes_.
  - destruct H as [Hd Hne]. cbn [String.eqb Ascii.eqb Bool.eqb]. rewrite (parse_var_hex_dump d t) by auto. reflexivity.
  - cbn [String.eqb Ascii.eqb Bool.eqb]. rewrite text_bytes_str. reflexivity.
  - cbn [String.eqb Ascii.eqb Bool.eqb]. rewrite text_bytes_str. reflexivity.
  - destruct H as [Hc [Hv [Hcr Hvr]]]. cbn [String.eqb Ascii.eqb Bool.eqb].
    unfold parse_var_bytes_repeat. rewrite (parse_uint32_number ct c) by (auto; lia). cbn [bind].
    rewrite (parse_uint8_number vt v) by (auto; lia). cbn [bind].
    replace (size_limit <? c) with false by (unfold size_limit; lia). reflexivity.
  - destruct H as [Hc Hcr]. cbn [String.eqb Ascii.eqb Bool.eqb].
    unfold parse_var_bytes_pattern. rewrite (parse_uint32_number ct c) by (auto; lia). cbn [bind].
    replace (size_limit <? c) with false by (unfold size_limit; lia).
    destruct pt; cbn [pattern_word String.eqb Ascii.eqb Bool.eqb bind vres_of].
    + rewrite (cnt_pattern_spec _ 0). f_equal.
    + f_equal. f_equal. unfold pattern_byte. rewrite map_const_repeat, seq_length. auto.
    + f_equal. f_equal. unfold pattern_byte. rewrite map_const_repeat, seq_length. auto.
Qed.

Lemma piece_words_len : forall p, (2 <= length (piece_words p))%nat.
Proof. intros []; cbn; lia. Qed.

Lemma pvb_pieces : forall ps fuel rest i acc,
  Forall piece_ok ps -> (rest = [] \/ exists w r, rest = w :: r /\ not_piece_word w) ->
  (length (flat_map piece_words ps ++ rest) < fuel)%nat ->
  (acc <> None \/ ps <> []) ->
  pvb_loop fuel (flat_map piece_words ps ++ rest) i acc =
  Ret (Z.of_nat (i + length (flat_map piece_words ps)),
       Some (match acc with Some a => a | None => [] end ++ concat (map piece_data ps))).
Proof.
  induction ps as [|p ps IH]; intros fuel rest i acc Hok Hrest Hfuel Hacc.
  - cbn [flat_map app map concat length] in *. rewrite app_nil_r.
    destruct acc as [a|]; [|destruct Hacc; congruence].
    destruct fuel as [|fuel]; [lia|]. cbn [pvb_loop].
    rewrite Nat.add_0_r. destruct Hrest as [->|[w [r [-> Hw]]]]; auto.
    unfold parse_var_bytes_. unfold not_piece_word in Hw. cbn [In] in Hw.
    repeat match goal with |- context [String.eqb w ?k] =>
      destruct (String.eqb w k) eqn:?; [match goal with H : String.eqb w k = true |- _ => apply String.eqb_eq in H; subst; exfalso; apply Hw; auto 10 end|] end.
    reflexivity.
  - cbn [flat_map map concat] in *. inversion Hok as [|? ? Hp Hps]; subst.
    rewrite <- app_assoc in *. destruct fuel as [|fuel]; [lia|].
    cbn [pvb_loop].
    pose proof (piece_words_len p) as Hlen.
    destruct (piece_words p ++ flat_map piece_words ps ++ rest) as [|w0 ws0] eqn:Ews.
    { destruct (piece_words p); cbn in *; [lia|discriminate]. }
    rewrite <- Ews. rewrite piece_step by auto. cbn [bind].
    rewrite skipn_app, skipn_all, Nat.sub_diag. cbn [skipn app].
    rewrite IH; auto.
    + rewrite app_length. f_equal. f_equal; [lia|]. rewrite app_assoc. f_equal.
      destruct acc; auto.
    + rewrite <- Ews in Hfuel. rewrite app_length in Hfuel. lia.
    + left. discriminate.
Qed.

Lemma pieces_parsed : forall ps rest,
  ps <> [] -> Forall piece_ok ps -> (rest = [] \/ exists w r, rest = w :: r /\ not_piece_word w) ->
  parse_var_bytes (flat_map piece_words ps ++ rest) =
  Ret (Z.of_nat (length (flat_map piece_words ps)), Some (concat (map piece_data ps))).
Proof.
  intros ps rest Hne Hok Hrest. unfold parse_var_bytes. rewrite pvb_pieces; auto.
Qed.

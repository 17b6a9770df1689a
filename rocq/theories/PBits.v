(** Lemmas about bit access and field writes. *)

From Verif Require Export BaseFacts SpecText SpecBits PTextNum.

Lemma is_byte_bytes : forall l, Forall is_byte l <-> bytes_ok l.
Proof. intros. unfold bytes_ok. split; intros H; eapply Forall_impl; try exact H; intros; apply is_byte_ok || unfold byte_ok, is_byte in *; lia. Qed.

Lemma testbit_land1 : forall x k, 0 <= k -> Z.land (Z.shiftr x k) 1 = Z.b2z (Z.testbit x k).
Proof.
  intros x k Hk. change 1 with (Z.ones 1). rewrite Z.land_ones by lia. rewrite Z.shiftr_div_pow2 by lia.
  change (2 ^ 1) with 2. rewrite Z.testbit_spec' by lia. reflexivity.
Qed.

Lemma bit_get_ok : forall v pos, 0 <= pos < 8 * zlen v -> bit_get v pos = Ret (Z.b2z (bit_at v pos)).
Proof.
  intros v pos Hp. unfold bit_get. replace (pos / 8 <? zlen v) with true by lia.
  rewrite bget_ok by lia. cbn [bind]. rewrite testbit_land1 by lia. reflexivity.
Qed.

Lemma bit_get_out : forall v pos, 8 * zlen v <= pos -> bit_get v pos = Crash Assert_fail.
Proof. intros v pos Hp. unfold bit_get. replace (pos / 8 <? zlen v) with false by lia. reflexivity. Qed.

Definition set_bit_in (x k : Z) (v : bool) : Z :=
  if v then u8 (Z.lor x (Z.shiftl 1 k)) else u8 (Z.land x (Z.lnot (Z.shiftl 1 k))).

Lemma set_bit_in_spec : forall x k v j, byte_ok x -> 0 <= k < 8 -> 0 <= j < 8 ->
  Z.testbit (set_bit_in x k v) j = if j =? k then v else Z.testbit x j.
Proof.
  intros x k v j Hx Hk Hj. unfold set_bit_in, u8. change 256 with (2 ^ 8).
  destruct v; rewrite Z.mod_pow2_bits_low by lia.
  - rewrite Z.lor_spec, Z.shiftl_spec by lia. destruct (Z.eqb_spec j k) as [->|Hn].
    + rewrite Z.sub_diag. cbn. apply orb_true_r.
    + change 1 with (2 ^ 0). rewrite Z.pow2_bits_false by lia. apply orb_false_r.
  - rewrite Z.land_spec, Z.lnot_spec, Z.shiftl_spec by lia. destruct (Z.eqb_spec j k) as [->|Hn].
    + rewrite Z.sub_diag. cbn. apply andb_false_r.
    + change 1 with (2 ^ 0). rewrite Z.pow2_bits_false by lia. apply andb_true_r.
Qed.

Lemma set_bit_in_byte : forall x k v, byte_ok (set_bit_in x k v).
Proof. intros. unfold set_bit_in. destruct v; apply u8_byte. Qed.

Lemma bit_set_spec : forall b pos v, bytes_ok b -> 0 <= pos < 8 * zlen b ->
  exists b', bit_set b pos (Z.b2z v) = Ret b' /\ length b' = length b /\ bytes_ok b' /\
  forall i, 0 <= i -> bit_at b' i = if i =? pos then v else bit_at b i.
Proof.
  intros b pos v Hb Hp. unfold bit_set. replace (pos / 8 <? zlen b) with true by lia.
  rewrite bget_ok by lia. cbn [bind]. unfold zlen in Hp.
  set (x := nth (Z.to_nat (pos / 8)) b 0).
  assert (Hx : byte_ok x) by (apply bytes_ok_nth; auto).
  assert (E : (if negb (Z.b2z v =? 0) then u8 (Z.lor x (Z.shiftl 1 (7 - pos mod 8)))
     else u8 (Z.land x (Z.lnot (Z.shiftl 1 (7 - pos mod 8))))) = set_bit_in x (7 - pos mod 8) v)
   by (destruct v; reflexivity).
  rewrite E. rewrite bput_ok by (unfold zlen; lia). eexists. split; [reflexivity|].
  split; [apply upd_length|]. split; [apply upd_Forall; auto; apply set_bit_in_byte|].
  intros i Hi. unfold bit_at. rewrite nth_upd.
  replace (Z.to_nat (pos / 8) <? length b)%nat with true by lia. rewrite andb_true_r.
  destruct (Nat.eqb_spec (Z.to_nat (i / 8)) (Z.to_nat (pos / 8))) as [E1|E1].
  - rewrite set_bit_in_spec by (auto; lia). unfold x. rewrite E1.
    destruct (Z.eqb_spec (7 - i mod 8) (7 - pos mod 8)), (Z.eqb_spec i pos); auto; try (subst; lia).
  - destruct (Z.eqb_spec i pos); auto. subst. congruence.
Qed.

Lemma write_bits_spec : forall n pos b base val first,
  bytes_ok b -> 0 <= pos -> 0 <= base -> 0 <= first ->
  first + pos + Z.of_nat n <= 8 * zlen val -> 8 * zlen val < 2 ^ 64 ->
  base + pos + Z.of_nat n <= 8 * zlen b ->
  exists b', write_bits n pos b base val first = Ret b' /\ length b' = length b /\ bytes_ok b' /\
  forall i, 0 <= i -> bit_at b' i =
    if (base + pos <=? i) && (i <? base + pos + Z.of_nat n) then bit_at val (i - base + first) else bit_at b i.
Proof.
  induction n as [|n IH]; intros pos b base val first Hb Hp Hba Hf Hv H64 Hl; cbn [write_bits].
  - exists b. split; [auto|split; [auto|split; [auto|]]]. intros i Hi.
    replace ((base + pos <=? i) && (i <? base + pos + Z.of_nat 0)) with false by lia. auto.
  - assert (Hu : u64 (pos + first) = pos + first) by (unfold u64; apply Z.mod_small; lia).
    rewrite Hu, bit_get_ok by lia. cbn [bind].
    destruct (bit_set_spec b (base + pos) (bit_at val (pos + first)) Hb ltac:(lia)) as [b1 [E1 [L1 [O1 S1]]]].
    rewrite E1. cbn [bind].
    destruct (IH (pos + 1) b1 base val first) as [b' [E2 [L2 [O2 S2]]]]; try lia; auto; [unfold zlen in *; lia|].
    exists b'. split; [auto|split; [lia|split; [auto|]]]. intros i Hi. rewrite S2, S1 by lia.
    destruct (Z.eqb_spec i (base + pos)) as [->|Hne].
    + replace ((base + (pos + 1) <=? base + pos) && (base + pos <? base + (pos + 1) + Z.of_nat n)) with false by lia.
      replace ((base + pos <=? base + pos) && (base + pos <? base + pos + Z.of_nat (S n))) with true by lia.
      f_equal. lia.
    + destruct ((base + (pos + 1) <=? i) && (i <? base + (pos + 1) + Z.of_nat n)) eqn:E;
        destruct ((base + pos <=? i) && (i <? base + pos + Z.of_nat (S n))) eqn:E'; auto; exfalso; lia.
Qed.

(** Sizes of C objects. *)
Definition small (b : buf) : Prop := zlen b < 2 ^ 60.

Lemma small_lim : forall b, zlen b <= 2 * size_limit -> small b.
Proof. intros b H. unfold small, size_limit in *. lia. Qed.

Lemma write_field_spec : forall b offset f v,
  bytes_ok b -> 0 <= offset -> 0 <= f_off f -> 0 <= f_width f ->
  f_off f + f_width f + 8 * offset <= 8 * zlen b ->
  f_width f <= 8 * zlen v -> small v ->
  exists b', hdr_write_field b offset f v = Ret b' /\ length b' = length b /\ bytes_ok b' /\
  forall i, 0 <= i -> bit_at b' i =
    if (8 * offset + f_off f <=? i) && (i <? 8 * offset + f_off f + f_width f)
    then bit_at v (i - (8 * offset + f_off f) + (8 * zlen v - f_width f)) else bit_at b i.
Proof.
  intros b offset f v Hb Ho Hf Hw Hfit Hv Hs. unfold small in Hs. unfold hdr_write_field.
  replace (8 * zlen b <? f_width f + f_off f + offset * 8) with false by lia.
  assert (Hu : u64 (8 * zlen v - f_width f) = 8 * zlen v - f_width f) by (unfold u64; apply Z.mod_small; lia).
  rewrite Hu.
  destruct (write_bits_spec (Z.to_nat (f_width f)) 0 b (f_off f + 8 * offset) v (8 * zlen v - f_width f))
    as [b' [E [L [O S]]]]; auto; try lia.
  exists b'. split; [auto|split; [auto|split; [auto|]]]. intros i Hi. rewrite S by auto.
  rewrite Z2Nat.id by lia.
  replace (f_off f + 8 * offset + 0) with (8 * offset + f_off f) by lia.
  replace (i - (f_off f + 8 * offset)) with (i - (8 * offset + f_off f)) by lia. reflexivity.
Qed.

Lemma write_field_assert : forall b offset f v,
  0 <= offset -> 0 <= f_off f -> 0 <= f_width f -> small b -> small v ->
  (8 * zlen b < f_off f + f_width f + 8 * offset \/ 8 * zlen v < f_width f) ->
  hdr_write_field b offset f v = Crash Assert_fail.
Proof.
  intros b offset f v Ho Hf Hw Hsb Hs H. unfold small in *. unfold hdr_write_field.
  destruct (Z.ltb_spec (8 * zlen b) (f_width f + f_off f + offset * 8)) as [|Hfit]; auto.
  destruct H as [H|H]; [lia|].
  assert (Hu : u64 (8 * zlen v - f_width f) = 2 ^ 64 + (8 * zlen v - f_width f)).
  { unfold u64. rewrite <- (Z_mod_plus_full _ 1). rewrite Z.mod_small; [lia|]. pose proof (zlen_nonneg _ v). lia. }
  rewrite Hu. pose proof (zlen_nonneg _ v). destruct (Z.to_nat (f_width f)) eqn:En; [lia|]. cbn [write_bits].
  assert (Hu2 : u64 (0 + (2 ^ 64 + (8 * zlen v - f_width f))) = 2 ^ 64 + (8 * zlen v - f_width f))
    by (unfold u64; apply Z.mod_small; lia).
  rewrite Hu2, bit_get_out by lia. reflexivity.
Qed.

(** ** Numbers in a buffer *)

Lemma number_at_ext : forall w a b p q, (forall k, 0 <= k < Z.of_nat w -> bit_at a (p + k) = bit_at b (q + k)) ->
  number_at a p w = number_at b q w.
Proof.
  induction w as [|w IH]; intros a b p q H; auto. cbn [number_at]. rewrite (IH a b p q) by (intros; apply H; lia).
  rewrite (H (Z.of_nat w)) by lia. reflexivity.
Qed.

Lemma bit_at_app_l : forall a b i, 0 <= i < 8 * zlen a -> bit_at (a ++ b) i = bit_at a i.
Proof. intros a b i Hi. unfold bit_at. rewrite app_nth1; auto. unfold zlen in Hi. lia. Qed.

Lemma bit_at_app_r : forall a b i, 8 * zlen a <= i -> bit_at (a ++ b) i = bit_at b (i - 8 * zlen a).
Proof.
  intros a b i Hi. unfold bit_at. unfold zlen in *. rewrite app_nth2 by lia. f_equal; [|lia]. f_equal. lia.
Qed.

Lemma bit_at_beyond : forall b i, 8 * zlen b <= i -> bit_at b i = false.
Proof.
  intros b i Hi. unfold bit_at. rewrite nth_overflow; [apply Z.testbit_0_l|]. unfold zlen in Hi. lia.
Qed.

Lemma be_val_testbit : forall b j, bytes_ok b -> 0 <= j < 8 * zlen b ->
  Z.testbit (be_val b) j = bit_at b (8 * zlen b - 1 - j).
Proof.
  intros b. induction b as [|x b IH] using rev_ind; intros j Hb Hj.
  - rewrite zlen_nil in Hj. lia.
  - apply bytes_ok_app in Hb. destruct Hb as [Hb Hx]. inversion Hx as [|? ? Hx1 _]; subst.
    rewrite zlen_app, zlen_cons, zlen_nil in *. rewrite be_val_snoc, Z.mul_comm.
    unfold byte_ok in Hx1.
    assert (Hd : forall k, 0 <= k -> Z.testbit (256 * be_val b + x) k =
       if k <? 8 then Z.testbit x k else Z.testbit (be_val b) (k - 8)).
    { intros k Hk. destruct (Z.ltb_spec k 8).
      - rewrite <- (Z.mod_pow2_bits_low (256 * be_val b + x) 8 k) by lia.
        change (2 ^ 8) with 256. rewrite Z.add_comm, Z.mul_comm, Z_mod_plus_full, Z.mod_small by lia. auto.
      - replace k with (k - 8 + 8) at 1 by lia. rewrite <- Z.div_pow2_bits by lia. change (2 ^ 8) with 256.
        f_equal. lia. }
    rewrite Hd by lia. destruct (Z.ltb_spec j 8).
    + rewrite bit_at_app_r by lia. unfold bit_at.
      assert (E : (8 * (zlen b + (1 + 0)) - 1 - j - 8 * zlen b) / 8 = 0) by lia. rewrite E. cbn [nth Z.to_nat].
      f_equal. lia.
    + rewrite IH by (auto; lia). rewrite bit_at_app_l by lia. f_equal. lia.
Qed.

(** The recursive reading equals the positional one. *)
Lemma number_at_val : forall b pos w, bytes_ok b -> 0 <= pos -> pos + Z.of_nat w <= 8 * zlen b ->
  number_at b pos w = (be_val b / 2 ^ (8 * zlen b - pos - Z.of_nat w)) mod 2 ^ Z.of_nat w.
Proof.
  intros b pos w Hb Hp. induction w as [|w IH]; intros Hl.
  - cbn [number_at]. change (2 ^ Z.of_nat 0) with 1. rewrite Z.mod_1_r. auto.
  - cbn [number_at]. rewrite IH by lia.
    set (m := 8 * zlen b - pos - Z.of_nat (S w)).
    replace (8 * zlen b - pos - Z.of_nat w) with (m + 1) by (unfold m; lia).
    assert (Hbit : bit_at b (pos + Z.of_nat w) = Z.testbit (be_val b) m).
    { rewrite be_val_testbit by (auto; unfold m; lia). f_equal. unfold m. lia. }
    rewrite Hbit. rewrite Nat2Z.inj_succ. unfold Z.succ. rewrite !Z.pow_add_r by (unfold m; lia).
    change (2 ^ 1) with 2. rewrite <- Z.div_div by lia.
    assert (Ht : (if Z.testbit (be_val b) m then 1 else 0) = (be_val b / 2 ^ m) mod 2).
    { rewrite <- Z.testbit_spec' by (unfold m; lia). destruct (Z.testbit (be_val b) m); auto. }
    rewrite Ht. set (q := be_val b / 2 ^ m).
    rewrite (Z.mul_comm (2 ^ Z.of_nat w) 2). rewrite Z.rem_mul_r by lia. lia.
Qed.

Lemma number_at_tail : forall v w, bytes_ok v -> Z.of_nat w <= 8 * zlen v ->
  number_at v (8 * zlen v - Z.of_nat w) w = be_val v mod 2 ^ Z.of_nat w.
Proof.
  intros v w Hv Hw. rewrite number_at_val by (auto; lia).
  replace (8 * zlen v - (8 * zlen v - Z.of_nat w) - Z.of_nat w) with 0 by lia.
  rewrite Z.pow_0_r, Z.div_1_r. auto.
Qed.

Lemma write_field_number : forall b offset f v,
  Forall is_byte b -> Forall is_byte v -> 0 <= offset -> 0 <= f_off f -> 0 <= f_width f ->
  f_off f + f_width f + 8 * offset <= 8 * Z.of_nat (length b) ->
  f_width f <= 8 * Z.of_nat (length v) -> Z.of_nat (length v) < 2 ^ 60 ->
  exists b', hdr_write_field b offset f v = Ret b' /\ length b' = length b /\ Forall is_byte b' /\
    number_at b' (8 * offset + f_off f) (Z.to_nat (f_width f)) = positional 256 v mod 2 ^ f_width f /\
    forall i, 0 <= i -> ~ (8 * offset + f_off f <= i < 8 * offset + f_off f + f_width f) ->
      bit_at b' i = bit_at b i.
Proof.
  intros b offset f v Hb Hv Ho Hf Hw Hfit Hwv Hs. apply is_byte_bytes in Hb, Hv.
  destruct (write_field_spec b offset f v Hb Ho Hf Hw Hfit Hwv Hs) as [b' [E [L [O S]]]].
  exists b'. split; [auto|split; [auto|split; [apply is_byte_bytes; auto|split]]].
  - rewrite (number_at_ext _ b' v _ (8 * zlen v - Z.of_nat (Z.to_nat (f_width f)))).
    + rewrite number_at_tail by (auto; unfold zlen; lia). rewrite Z2Nat.id by lia. rewrite positional_be_val. auto.
    + intros k Hk. rewrite S by lia.
      replace ((8 * offset + f_off f <=? 8 * offset + f_off f + k) &&
        (8 * offset + f_off f + k <? 8 * offset + f_off f + f_width f)) with true by lia.
      f_equal. lia.
  - intros i Hi Hn. rewrite S by auto.
    replace ((8 * offset + f_off f <=? i) && (i <? 8 * offset + f_off f + f_width f)) with false by lia. auto.
Qed.

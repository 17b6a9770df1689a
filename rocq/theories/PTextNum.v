(** Proofs about numbers: C01, C02, C03, C08. *)

From Verif Require Export BaseFacts SpecText.

Lemma digit_hexval : forall c, digit c = hexval c.
Proof. intros [b0 b1 b2 b3 b4 b5 b6 b7]; destruct b0, b1, b2, b3, b4, b5, b6, b7; reflexivity. Qed.

Lemma digit_range : forall c d, digit c = Some d -> 0 <= d < 16.
Proof. intros c d H. rewrite digit_hexval in H. eapply hexval_range; eauto. Qed.

Lemma is_byte_ok : forall l, Forall is_byte l <-> bytes_ok l.
Proof. reflexivity. Qed.

Lemma positional_be_val : forall l, positional 256 l = be_val l.
Proof. induction l; cbn [positional]; auto. rewrite be_val_cons, IHl. auto. Qed.

Lemma chars_app : forall a b, chars (a ++ b)%string = chars a ++ chars b.
Proof. induction a; cbn; intros; auto. rewrite IHa. auto. Qed.

Lemma chars_length : forall s, length (chars s) = String.length s.
Proof. induction s; cbn; auto. Qed.

Lemma chars_inj : forall a b, chars a = chars b -> a = b.
Proof.
  induction a; destruct b; cbn; intros H; inversion H; auto. f_equal. auto.
Qed.

Lemma str_existsb_chars : forall p s, str_existsb p s = existsb p (chars s).
Proof. induction s; cbn; auto. rewrite IHs. auto. Qed.

Lemma positional_app : forall b x y, 0 <= b ->
  positional b (x ++ y) = positional b x * b ^ Z.of_nat (length y) + positional b y.
Proof.
  intros b x y Hb. induction x as [|d x IH]; cbn [positional app]; [lia|].
  rewrite IH, app_length, Nat2Z.inj_add, Z.pow_add_r by lia. lia.
Qed.

Lemma positional_nonneg : forall b ds, 0 <= b -> Forall (fun d => 0 <= d) ds ->
  0 <= positional b ds.
Proof.
  intros b ds Hb H. induction H; cbn [positional]; [lia|].
  pose proof (Z.pow_nonneg b (Z.of_nat (length l)) Hb). nia.
Qed.

Lemma digits_nonneg : forall b s ds, digits_of b s ds -> Forall (fun d => 0 <= d) ds.
Proof.
  intros b s ds H. induction H; constructor; auto. destruct H as [H _]. apply digit_range in H. lia.
Qed.

Lemma denotes_nonneg : forall b s n, 0 <= b -> denotes b s n -> 0 <= n.
Proof. intros b s n Hb [ds [H ->]]. apply positional_nonneg; auto. eapply digits_nonneg; eauto. Qed.

Lemma denotes_nil : forall b, denotes b "" 0.
Proof. intros. exists []. split; [constructor|reflexivity]. Qed.

(** *** strtoull *)

Lemma strtoull_loop_spec : forall base s ds acc, digits_of base s ds -> 0 <= base ->
  strtoull_loop base acc s =
  (acc * base ^ Z.of_nat (length ds) + positional base ds, EmptyString).
Proof.
  intros base s. induction s as [|c s IH]; intros ds acc H Hb; inversion H; subst.
  - cbn. f_equal. lia.
  - cbn [strtoull_loop]. destruct H2 as [Hd Hlt]. rewrite digit_hexval in Hd. rewrite Hd.
    replace (y <? base) with true by lia. rewrite (IH l') by auto.
    cbn [length positional]. rewrite Nat2Z.inj_succ, Z.pow_succ_r by lia. f_equal. lia.
Qed.

Lemma strtoull_loop_inv : forall base s acc v, strtoull_loop base acc s = (v, EmptyString) ->
  exists ds, digits_of base s ds.
Proof.
  intros base s. induction s as [|c s IH]; intros acc v H; cbn [strtoull_loop] in H.
  - exists []. constructor.
  - destruct (hexval c) as [d|] eqn:Ed; [|discriminate].
    destruct (d <? base) eqn:El; [|discriminate].
    apply IH in H. destruct H as [ds H]. exists (d :: ds). constructor; auto.
    rewrite digit_hexval. split; auto. lia.
Qed.

Lemma strtoull_spec : forall base s n, denotes base s n -> 0 <= base ->
  strtoull s base = (if n <? 18446744073709551616 then Some n else None, EmptyString).
Proof.
  intros base s n [ds [H ->]] Hb. unfold strtoull.
  rewrite (strtoull_loop_spec base s ds) by auto. rewrite Z.mul_0_l, Z.add_0_l. auto.
Qed.

(** *** Character classes *)

Lemma class_hex : forall c, hexval c <> None <-> (in_base2 c || in_base8 c || in_base10 c || in_base16 c) = true.
Proof.
  intros [b0 b1 b2 b3 b4 b5 b6 b7]; destruct b0, b1, b2, b3, b4, b5, b6, b7;
    split; intros H; try reflexivity; try discriminate; try (exfalso; apply H; reflexivity).
Qed.

Definition all_ascii : list ascii := map (fun n => chr (Z.of_nat n)) (seq 0 256).

Lemma all_ascii_in : forall c, In c all_ascii.
Proof.
  intros c. unfold all_ascii. apply in_map_iff. exists (Z.to_nat (code c)). split.
  - apply code_inj. pose proof (code_range c). rewrite code_chr; lia.
  - apply in_seq. pose proof (code_range c). lia.
Qed.

Lemma forall_ascii : forall p : ascii -> bool, forallb p all_ascii = true -> forall c, p c = true.
Proof. intros p H c. rewrite forallb_forall in H. apply H, all_ascii_in. Qed.

Definition dig_in (b : Z) (c : ascii) : bool :=
  match hexval c with Some d => d <? b | None => false end.

(** What the flag words say about one character, for each base. *)
Lemma class_table : forall c,
  (let o := negb (in_base2 c || in_base8 c || in_base10 c || in_base16 c || is_dot c || is_colon c) in
   eqb (dig_in 16 c) (negb (o || is_dot c || is_colon c))
   && eqb (dig_in 10 c) (negb (o || is_dot c || is_colon c || in_base16 c))
   && eqb (dig_in 8 c) (negb (o || is_dot c || is_colon c || in_base16 c || in_base10 c))
   && eqb (dig_in 2 c) (negb (o || is_dot c || is_colon c || in_base16 c || in_base10 c || in_base8 c)))
  = true.
Proof. apply forall_ascii. vm_compute. reflexivity. Qed.

Lemma existsb_or_none : forall A (p q : A -> bool) l,
  existsb (fun x => p x || q x) l = existsb p l || existsb q l.
Proof.
  induction l; cbn; auto. rewrite IHl.
  destruct (p a), (q a), (existsb p l), (existsb q l); auto.
Qed.

Lemma forallb_negb_existsb : forall A (p : A -> bool) l,
  forallb (fun x => negb (p x)) l = negb (existsb p l).
Proof. induction l; cbn; auto. rewrite IHl. destruct (p a), (existsb p l); auto. Qed.

Lemma forallb_ext' : forall A (p q : A -> bool) l, (forall x, p x = q x) -> forallb p l = forallb q l.
Proof. induction l; cbn; intros; auto. rewrite H, IHl; auto. Qed.

Lemma base_of_digits : forall p d,
  base_of p (flags_of d) =
  match p with
  | Some P0x => if forallb (dig_in 16) (chars d) then 16 else 0
  | None => if forallb (dig_in 10) (chars d) then 10 else 0
  | Some P0o => if forallb (dig_in 8) (chars d) then 8 else 0
  | Some P0b => if forallb (dig_in 2) (chars d) then 2 else 0
  end.
Proof.
  intros p d. unfold base_of, flags_of.
  cbn [has_other has_dot has_colon has16 has10 has8]. rewrite !str_existsb_chars.
  set (o := fun c => negb (in_base2 c || in_base8 c || in_base10 c || in_base16 c || is_dot c || is_colon c)).
  assert (E16 : forallb (dig_in 16) (chars d) = negb (existsb o (chars d)) && negb (existsb is_dot (chars d))
                && negb (existsb is_colon (chars d))).
  { rewrite (forallb_ext' _ _ (fun c => negb ((o c || is_dot c) || is_colon c))).
    - rewrite forallb_negb_existsb, !existsb_or_none, !negb_orb. auto.
    - intros c. pose proof (class_table c) as H. cbv zeta in H. rewrite !andb_true_iff, !eqb_true_iff in H. tauto. }
  assert (E10 : forallb (dig_in 10) (chars d) = negb (existsb o (chars d)) && negb (existsb is_dot (chars d))
                && negb (existsb is_colon (chars d)) && negb (existsb in_base16 (chars d))).
  { rewrite (forallb_ext' _ _ (fun c => negb ((o c || is_dot c) || is_colon c || in_base16 c))).
    - rewrite forallb_negb_existsb, !existsb_or_none, !negb_orb. auto.
    - intros c. pose proof (class_table c) as H. cbv zeta in H. rewrite !andb_true_iff, !eqb_true_iff in H. tauto. }
  assert (E8 : forallb (dig_in 8) (chars d) = negb (existsb o (chars d)) && negb (existsb is_dot (chars d))
                && negb (existsb is_colon (chars d)) && negb (existsb in_base16 (chars d))
                && negb (existsb in_base10 (chars d))).
  { rewrite (forallb_ext' _ _ (fun c => negb ((o c || is_dot c) || is_colon c || in_base16 c || in_base10 c))).
    - rewrite forallb_negb_existsb, !existsb_or_none, !negb_orb. auto.
    - intros c. pose proof (class_table c) as H. cbv zeta in H. rewrite !andb_true_iff, !eqb_true_iff in H. tauto. }
  assert (E2 : forallb (dig_in 2) (chars d) = negb (existsb o (chars d)) && negb (existsb is_dot (chars d))
                && negb (existsb is_colon (chars d)) && negb (existsb in_base16 (chars d))
                && negb (existsb in_base10 (chars d)) && negb (existsb in_base8 (chars d))).
  { rewrite (forallb_ext' _ _ (fun c => negb ((o c || is_dot c) || is_colon c || in_base16 c || in_base10 c || in_base8 c))).
    - rewrite forallb_negb_existsb, !existsb_or_none, !negb_orb. auto.
    - intros c. pose proof (class_table c) as H. cbv zeta in H. rewrite !andb_true_iff, !eqb_true_iff in H. tauto. }
  destruct p as [[]|]; [rewrite E16|rewrite E8|rewrite E2|rewrite E10]; auto.
Qed.

Lemma dig_in_digits : forall b s, forallb (dig_in b) (chars s) = true <-> exists ds, digits_of b s ds.
Proof.
  intros b s. split.
  - induction s as [|c s IH]; cbn [chars forallb]; intros H.
    + exists []. constructor.
    + apply andb_prop in H. destruct H as [Hc H]. destruct (IH H) as [ds Hds].
      unfold dig_in in Hc. destruct (hexval c) as [d|] eqn:E; [|discriminate].
      exists (d :: ds). constructor; auto. rewrite digit_hexval. split; auto. lia.
  - intros [ds H]. unfold digits_of in H. induction H; cbn [forallb]; auto.
    rewrite IHForall2, andb_true_r. unfold dig_in. destruct H as [H1 H2].
    rewrite digit_hexval in H1. rewrite H1. lia.
Qed.

Lemma dig_in_false : forall b s, forallb (dig_in b) (chars s) = false -> forall ds, ~ digits_of b s ds.
Proof.
  intros b s H ds Hd. assert (forallb (dig_in b) (chars s) = true) by (apply dig_in_digits; eauto).
  congruence.
Qed.

(** *** Prefixes *)

Definition radix_of (p : option prefix) : Z :=
  match p with Some P0x => 16 | Some P0o => 8 | Some P0b => 2 | None => 10 end.

Lemma radix_of_cases : forall p, is_radix (radix_of p).
Proof. intros [[]|]; cbn; unfold is_radix; cbn; tauto. Qed.

Lemma is_radix_of : forall b, is_radix b -> exists p, b = radix_of p.
Proof.
  intros b [H|[H|[H|[H|[]]]]]; subst; [exists (Some P0b)|exists (Some P0o)|exists None|exists (Some P0x)]; auto.
Qed.

Lemma split_prefix_radix : forall s p d, split_prefix s = (p, d) ->
  s = (radix_prefix (radix_of p) ++ d)%string.
Proof.
  intros s p d H. unfold split_prefix in H.
  destruct s as [|c1 [|c2 r]]; try (inversion H; subst; reflexivity).
  destruct (code c1 =? 48) eqn:E1; [|inversion H; subst; reflexivity].
  assert (c1 = "0"%char) by (apply code_inj; cbn; lia). subst.
  destruct (code c2 =? 120) eqn:E2; [assert (c2 = "x"%char) by (apply code_inj; cbn; lia); inversion H; subst; reflexivity|].
  destruct (code c2 =? 111) eqn:E3; [assert (c2 = "o"%char) by (apply code_inj; cbn; lia); inversion H; subst; reflexivity|].
  destruct (code c2 =? 98) eqn:E4; [assert (c2 = "b"%char) by (apply code_inj; cbn; lia); inversion H; subst; reflexivity|].
  inversion H; subst. reflexivity.
Qed.

Lemma split_prefix_num : forall p d ds, digits_of (radix_of p) d ds ->
  split_prefix (radix_prefix (radix_of p) ++ d) = (p, d).
Proof.
  intros [[]|] d ds H; try reflexivity. cbn [radix_of radix_prefix Z.eqb Pos.eqb append] in *.
  unfold split_prefix. destruct d as [|c1 [|c2 d]]; auto.
  inversion H as [|? ? ? ? H1 H2]; subst. inversion H2 as [|? ? ? ? H3 H4]; subst.
  destruct H3 as [Hd Hlt]. rewrite digit_hexval in Hd.
  destruct (code c1 =? 48); auto.
  destruct (code c2 =? 120) eqn:E2; [assert (c2 = "x"%char) by (apply code_inj; cbn; lia); subst; discriminate|].
  destruct (code c2 =? 111) eqn:E3; [assert (c2 = "o"%char) by (apply code_inj; cbn; lia); subst; discriminate|].
  destruct (code c2 =? 98) eqn:E4; [assert (c2 = "b"%char) by (apply code_inj; cbn; lia); subst; cbn in Hd; inversion Hd; lia|].
  auto.
Qed.

Lemma base_of_num : forall p d ds, digits_of (radix_of p) d ds ->
  base_of p (flags_of d) = radix_of p.
Proof.
  intros p d ds H. rewrite base_of_digits.
  destruct p as [[]|]; cbn [radix_of] in *;
    match goal with |- (if ?x then _ else _) = _ =>
      replace x with true by (symmetry; apply dig_in_digits; eauto) end; auto.
Qed.

Lemma skipn_be_bytes8 : forall k v, 0 <= k <= 8 ->
  skipn (Z.to_nat (8 - k)) (be_bytes 8 v) = be_bytes (Z.to_nat k) v.
Proof. intros. rewrite skipn_be_bytes by lia. f_equal. lia. Qed.

Lemma big_endian_be_bytes : forall k n, 0 <= k -> big_endian k n (be_bytes (Z.to_nat k) n).
Proof.
  intros k n H. split; [|split].
  - rewrite be_bytes_length. lia.
  - apply is_byte_ok, be_bytes_ok.
  - rewrite positional_be_val, be_bytes_val. f_equal. f_equal. lia.
Qed.

(** A numeral of [n < 2^64] in at most 8 bytes: the model's result. *)
Lemma parse_bytes_num : forall p d n k, denotes (radix_of p) d n -> n < 2 ^ 64 -> 0 <= k <= 8 ->
  parse_bytes (radix_prefix (radix_of p) ++ d) k = Ret (Some (be_bytes (Z.to_nat k) n)).
Proof.
  intros p d n k Hd Hn Hk. destruct Hd as [ds [Hds Hv]]. unfold parse_bytes.
  rewrite (split_prefix_num p d ds) by auto. rewrite (base_of_num p d ds) by auto.
  assert (Hr : (radix_of p =? 0) = false) by (destruct p as [[]|]; reflexivity).
  assert (Hr' : 0 <= radix_of p) by (destruct p as [[]|]; cbn; lia).
  rewrite Hr. replace (k <=? 8) with true by lia. cbn [negb andb].
  rewrite (strtoull_spec _ _ n) by (try exists ds; auto).
  replace (n <? 18446744073709551616) with true by lia.
  replace (k <? 0) with false by lia. rewrite skipn_be_bytes8 by lia. auto.
Qed.

Lemma numeral_stored : forall base body n k,
  is_radix base -> denotes base body n -> n < 2 ^ 64 -> 1 <= k <= 8 ->
  exists l, parse_bytes (radix_prefix base ++ body) k = Ret (Some l) /\ big_endian k n l.
Proof.
  intros base body n k Hr Hd Hn Hk. apply is_radix_of in Hr. destruct Hr as [p ->].
  exists (be_bytes (Z.to_nat k) n). split.
  - apply parse_bytes_num; auto. lia.
  - apply big_endian_be_bytes. lia.
Qed.

(** *** C02 *)

Lemma no_dot_colon_flags : forall d, ~ contains "." d -> ~ contains ":" d ->
  has_dot (flags_of d) = false /\ has_colon (flags_of d) = false.
Proof.
  intros d H1 H2. unfold flags_of; cbn [has_dot has_colon]. rewrite !str_existsb_chars.
  split.
  - destruct (existsb is_dot (chars d)) eqn:E; auto. apply existsb_exists in E.
    destruct E as [c [Hin Hc]]. exfalso; apply H1. unfold is_dot in Hc.
    assert (c = "."%char) by (apply code_inj; cbn; lia). subst. auto.
  - destruct (existsb is_colon (chars d)) eqn:E; auto. apply existsb_exists in E.
    destruct E as [c [Hin Hc]]. exfalso; apply H2. unfold is_colon in Hc.
    assert (c = ":"%char) by (apply code_inj; cbn; lia). subst. auto.
Qed.

Lemma contains_app_r : forall c a b, contains c b -> contains c (a ++ b)%string.
Proof. intros. unfold contains in *. rewrite chars_app. apply in_or_app; auto. Qed.

(** Without '.' and ':' and with at most 8 bytes the parser answers, and a
    positive answer means a numeral. *)
Lemma parse_bytes_plain : forall s k, ~ contains "." s -> ~ contains ":" s -> 1 <= k <= 8 ->
  (exists p d n, s = (radix_prefix (radix_of p) ++ d)%string /\ denotes (radix_of p) d n /\ n < 2 ^ 64
       /\ parse_bytes s k = Ret (Some (be_bytes (Z.to_nat k) n)))
  \/ (parse_bytes s k = Ret None /\
      forall p d n, s = (radix_prefix (radix_of p) ++ d)%string -> denotes (radix_of p) d n -> 2 ^ 64 <= n).
Proof.
  intros s k Hdot Hcol Hk. destruct (split_prefix s) as [p d] eqn:Esp.
  pose proof (split_prefix_radix _ _ _ Esp) as Hs.
  assert (Huniq : forall p' d' n', s = (radix_prefix (radix_of p') ++ d')%string -> denotes (radix_of p') d' n' -> p' = p /\ d' = d).
  { intros p' d' n' Hs' [ds' [Hd' _]]. apply split_prefix_num in Hd'. rewrite <- Hs', Esp in Hd'. inversion Hd'; auto. }
  destruct (base_of p (flags_of d) =? 0) eqn:Eb.
  - right. assert (Hnone : forall ds, ~ digits_of (radix_of p) d ds).
    { intros ds Hds. rewrite (base_of_num p d ds) in Eb by auto. destruct p as [[]|]; discriminate. }
    split.
    + unfold parse_bytes. rewrite Esp. rewrite Eb. cbn [negb andb].
      assert (Hb : base_of p (flags_of d) = 0) by lia. rewrite Hb. cbn [Z.eqb].
      destruct (no_dot_colon_flags d) as [Hfd Hfc].
      { intros Hc. apply Hdot. rewrite Hs. apply contains_app_r; auto. }
      { intros Hc. apply Hcol. rewrite Hs. apply contains_app_r; auto. }
      rewrite Hfd, Hfc. destruct p; auto. rewrite !andb_false_r. auto.
    + intros p' d' n' Hs' Hd'. destruct (Huniq _ _ _ Hs' Hd') as [-> ->].
      destruct Hd' as [ds [Hds _]]. exfalso. eapply Hnone; eauto.
  - assert (Hds : exists ds, digits_of (radix_of p) d ds).
    { rewrite base_of_digits in Eb. destruct p as [[]|]; cbn [radix_of];
        match type of Eb with ((if ?x then _ else _) =? 0) = _ => destruct x eqn:E; [|discriminate] end;
        apply dig_in_digits; auto. }
    destruct Hds as [ds Hds]. set (n := positional (radix_of p) ds).
    assert (Hden : denotes (radix_of p) d n) by (exists ds; auto).
    destruct (Z_lt_dec n (2 ^ 64)) as [Hn|Hn].
    + left. exists p, d, n. repeat split; auto. rewrite Hs. apply parse_bytes_num; auto. lia.
    + right. split.
      * unfold parse_bytes. rewrite Esp, Eb. replace (k <=? 8) with true by lia. cbn [negb andb].
        rewrite (base_of_num p d ds) by auto.
        rewrite (strtoull_spec _ _ n); auto; [|destruct p as [[]|]; cbn; lia].
        replace (n <? 18446744073709551616) with false by lia. auto.
      * intros p' d' n' Hs' Hd'. destruct (Huniq _ _ _ Hs' Hd') as [-> ->].
        destruct Hd' as [ds' [Hds' ->]].
        assert (Hdet : ds' = ds).
        { clear - Hds Hds'. unfold digits_of in *. revert ds Hds.
          induction Hds' as [|c d0 l l' Hc Hrest IH]; intros ds Hds; inversion Hds as [|? ? ? ? Hc2 Hr2]; subst; auto.
          destruct Hc as [Hc _], Hc2 as [Hc2 _]. rewrite Hc in Hc2. inversion Hc2; subst. f_equal. eapply IH; eauto. }
        subst. fold n. lia.
Qed.

Lemma numeral_accepted_iff : forall s k, ~ contains "." s -> ~ contains ":" s -> 1 <= k <= 8 ->
  ((exists l, parse_bytes s k = Ret (Some l)) <->
   (exists base body n, is_radix base /\ s = (radix_prefix base ++ body)%string /\
                        denotes base body n /\ n < 2 ^ 64))
  /\ ((forall l, parse_bytes s k <> Ret (Some l)) -> parse_bytes s k = Ret None).
Proof.
  intros s k H1 H2 Hk. destruct (parse_bytes_plain s k H1 H2 Hk) as [[p [d [n [Hs [Hd [Hn Hp]]]]]]|[Hp Hno]].
  - split.
    + split; intros _; [|eauto]. exists (radix_of p), d, n. repeat split; auto. apply radix_of_cases.
    + intros Hf. exfalso. eapply Hf; eauto.
  - split; auto. split.
    + intros [l Hl]. congruence.
    + intros [base [body [n [Hr [Hs [Hd Hn]]]]]]. apply is_radix_of in Hr. destruct Hr as [p ->].
      specialize (Hno p body n Hs Hd). lia.
Qed.

(** *** Printing decimals and reading them back *)

Lemma print_loop_spec : forall fuel base n acc, 2 <= base <= 16 -> 0 <= n -> (n < 2 ^ Z.of_nat fuel) ->
  (0 < fuel)%nat ->
  exists s ds, print_loop fuel base n acc = (s ++ acc)%string /\ digits_of base s ds /\ positional base ds = n /\ ds <> [].
Proof.
  induction fuel as [|fuel IH]; intros base n acc Hb Hn Hf Hz; [lia|].
  cbn [print_loop].
  assert (Hdig : digit (digit_char (n mod base)) = Some (n mod base)).
  { rewrite digit_hexval. apply hexval_digit. pose proof (Z.mod_pos_bound n base). lia. }
  destruct (n <? base) eqn:E.
  - exists (String (digit_char (n mod base)) ""), [n mod base]. repeat split.
    + constructor; [|constructor]. split; auto. apply Z.mod_pos_bound; lia.
    + cbn [positional length Z.of_nat]. rewrite Z.mod_small by lia. lia.
    + discriminate.
  - assert (Hq : n / base < 2 ^ Z.of_nat fuel).
    { apply Z.div_lt_upper_bound; [lia|]. rewrite Nat2Z.inj_succ, Z.pow_succ_r in Hf by lia.
      assert (0 < 2 ^ Z.of_nat fuel) by (apply Z.pow_pos_nonneg; lia). nia. }
    destruct fuel as [|fuel'].
    { cbn in Hq. assert (1 <= n / base) by (apply Z.div_le_lower_bound; lia). lia. }
    destruct (IH base (n / base) (String (digit_char (n mod base)) acc)) as [s [ds [H1 [H2 [H3 H4]]]]]; auto; try lia.
    exists (s ++ String (digit_char (n mod base)) "")%string, (ds ++ [n mod base]). repeat split.
    + rewrite H1, str_app_assoc. auto.
    + unfold digits_of in *. rewrite chars_app. apply Forall2_app; auto. constructor; [|constructor].
      split; auto. apply Z.mod_pos_bound; lia.
    + rewrite positional_app by lia. cbn [positional length Z.of_nat]. rewrite H3.
      pose proof (Z.div_mod n base ltac:(lia)). cbn [Pos.of_succ_nat]. lia.
    + destruct ds; discriminate.
Qed.

Lemma print_base_denotes : forall base n, 2 <= base <= 16 -> 0 <= n -> denotes base (print_base base n) n.
Proof.
  intros base n Hb Hn. unfold print_base.
  destruct (print_loop_spec (S (Z.to_nat (Z.log2 n))) base n "" Hb Hn) as [s [ds [H1 [H2 [H3 H4]]]]]; try lia.
  - rewrite Nat2Z.inj_succ, Z2Nat.id by apply Z.log2_nonneg.
    destruct (Z.eq_dec n 0) as [->|Hnz]; [cbn; lia|]. apply Z.log2_spec. lia.
  - rewrite H1, str_app_nil. exists ds. auto.
Qed.

Lemma parse_print_d : forall n k, 0 <= n < 2 ^ 64 -> 0 <= k <= 8 ->
  parse_bytes (print_d n) k = Ret (Some (be_bytes (Z.to_nat k) n)).
Proof.
  intros n k Hn Hk. unfold print_d. replace (n <? 0) with false by lia.
  change (print_base 10 n) with (radix_prefix (radix_of None) ++ print_base 10 n)%string.
  apply parse_bytes_num; try lia. apply print_base_denotes; cbn; lia.
Qed.

Lemma parse_print_0x : forall n k, 0 <= n < 2 ^ 64 -> 0 <= k <= 8 ->
  parse_bytes ("0x" ++ print_base 16 n) k = Ret (Some (be_bytes (Z.to_nat k) n)).
Proof.
  intros n k Hn Hk.
  change ("0x" ++ print_base 16 n)%string with (radix_prefix (radix_of (Some P0x)) ++ print_base 16 n)%string.
  apply parse_bytes_num; try lia. apply print_base_denotes; cbn; lia.
Qed.

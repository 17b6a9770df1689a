(** Safety and results of the value parsers. *)

From Verif Require Import PTextIp Frame PSer SpecParse.

(** *** parse_bytes can only crash on an over-long literal of a wide field *)
Lemma parse_bytes_crash : forall s k c, 0 <= k -> parse_bytes s k = Crash c ->
  8 < k /\ c = OOB_read /\ too_long s k.
Proof.
  intros s k c Hk H.
  assert (Hk8 : 8 < k).
  { destruct (Z.leb_spec k 8) as [Hle|]; auto. destruct (parse_bytes_safe8 s k) as [o Ho]; [lia|congruence]. }
  split; auto.
  assert (H0 := H). unfold parse_bytes in H0. destruct (split_prefix s) as [p d] eqn:Esp.
  apply split_prefix_radix in Esp. replace (k <=? 8) with false in H0 by lia. rewrite andb_false_r in H0.
  rewrite base_of_digits in H0.
  destruct p as [[]|].
  - destruct (forallb (dig_in 16) (chars d)) eqn:Ed; cbn [Z.eqb Pos.eqb] in H0; [|discriminate].
    apply dig_in_digits in Ed. destruct Ed as [ds Hds]. change (s = ("0x" ++ d)%string) in Esp.
    rewrite Esp in H.
    destruct (Nat.Even_or_Odd (length ds)) as [He|Ho].
    + destruct (Z.ltb_spec (2 * k) (Z.of_nat (length ds))) as [Hlt|Hge].
      * rewrite (wide_hex_overflow d ds k) in H by auto. split; [congruence|]. left. exists d, ds. auto.
      * destruct (Nat.eq_dec (length ds) 0) as [E0|].
        { exfalso. inversion Hds as [Hc|]; subst; cbn [length] in *; [|lia].
          destruct d; [|discriminate Hc]. vm_compute in H0. discriminate. }
        destruct (wide_hex d ds k) as [l [Hl _]]; auto; [lia|congruence].
    + rewrite (wide_hex_odd d ds k) in H by auto. discriminate.
  - destruct (forallb (dig_in 8) (chars d)); cbn [Z.eqb Pos.eqb] in H0; discriminate.
  - destruct (forallb (dig_in 2) (chars d)) eqn:Ed; cbn [Z.eqb Pos.eqb] in H0; [|discriminate].
    apply dig_in_digits in Ed. destruct Ed as [ds Hds]. change (s = ("0b" ++ d)%string) in Esp. rewrite Esp in H.
    destruct (Z.eq_dec (Z.of_nat (length ds) mod 8) 0) as [Em|Em].
    + destruct (Z.ltb_spec (8 * k) (Z.of_nat (length ds))) as [Hlt|Hge].
      * rewrite (wide_bin_overflow d ds k) in H by auto. split; [congruence|]. right. exists d, ds. auto.
      * destruct (Nat.eq_dec (length ds) 0) as [E0|].
        { exfalso. inversion Hds as [Hc|]; subst; cbn [length] in *; [|lia].
          destruct d; [|discriminate Hc]. vm_compute in H0. discriminate. }
        destruct (wide_bin d ds k) as [l [Hl _]]; auto; [lia|congruence].
    + unfold parse_bytes_binary in H0. rewrite (bin_scan_digits _ ds) in H0 by auto. rewrite Z.add_0_l in H0.
      fold (zlen ds) in Em. replace (zlen ds mod 8 =? 0) with false in H0 by lia. cbn [negb] in H0.
      destruct (zlen ds =? 0); discriminate.
  - destruct (forallb (dig_in 10) (chars d)); cbn [Z.eqb Pos.eqb] in H0;
    (replace (k =? 4) with false in H0 by lia; replace (k =? 6) with false in H0 by lia; cbn [andb] in H0;
     destruct ((k =? 16) && negb (has_other (flags_of d)) && has_colon (flags_of d)); discriminate).
Qed.

(** *** Dumps of any length are read safely *)
Fixpoint hexcount (s : string) : Z :=
  match s with
  | EmptyString => 0
  | String c r => (if hexval c then 1 else 0) + hexcount r
  end.

Lemma hexcount_nonneg : forall s, 0 <= hexcount s.
Proof. induction s as [|c s IH]; cbn [hexcount]; [lia|]. destruct (hexval c); lia. Qed.

Lemma nib_scan_count : forall s cnt o a, fst (fst (nib_scan s cnt o a)) = cnt + hexcount s.
Proof.
  induction s as [|c s IH]; intros cnt o a; cbn [nib_scan hexcount].
  - cbn [fst]. lia.
  - destruct (hexval c); [rewrite IH; lia|]. destruct (is_delim c); rewrite IH; lia.
Qed.

Lemma nib_fill_safe : forall s b p cnt, 0 <= cnt -> 0 <= p ->
  p + (cnt mod 2 + hexcount s + 1) / 2 <= zlen b -> exists b', nib_fill s b p cnt = Ret b'.
Proof.
  induction s as [|c s IH]; intros b p cnt Hc Hp Hl; cbn [nib_fill hexcount] in *; [eauto|].
  pose proof (hexcount_nonneg s) as Hn.
  destruct (hexval c) as [t|]; [|apply IH; auto].
  rewrite bget_ok by lia. cbn [bind]. rewrite bput_ok by lia. cbn [bind].
  destruct ((cnt + 1) mod 2 =? 1) eqn:E.
  - rewrite bget_ok by (rewrite zlen_upd; lia). cbn [bind]. rewrite bput_ok by (rewrite zlen_upd; lia). cbn [bind].
    apply IH; try lia. rewrite !zlen_upd. lia.
  - apply IH; try lia. rewrite !zlen_upd. lia.
Qed.

Lemma nib_scan_even : forall s cnt o a, snd (nib_scan s cnt o a) = false -> (cnt + hexcount s) mod 2 = 0.
Proof.
  induction s as [|c s IH]; intros cnt o a H; cbn [nib_scan hexcount] in *.
  - cbn [snd] in H. apply orb_false_iff in H. destruct H as [_ H]. lia.
  - destruct (hexval c).
    + apply IH in H. rewrite <- H. f_equal. lia.
    + destruct (is_delim c); apply IH in H; rewrite <- H; f_equal; lia.
Qed.

Lemma parse_var_bytes_hex_safe : forall s m, 0 <= m ->
  exists o, parse_var_bytes_hex s m = Ret o /\
  forall b, o = Some b -> m <= zlen b /\ 1 <= zlen b /\ bytes_ok b.
Proof.
  intros s m Hm. unfold parse_var_bytes_hex.
  pose proof (nib_scan_count s 0 false false) as Hc. pose proof (nib_scan_even s 0 false false) as He.
  destruct (nib_scan s 0 false false) as [[cnt o] al]. cbn [fst snd] in *.
  destruct (o || (cnt =? 0)) eqn:E0; [exists None; split; auto; discriminate|].
  destruct al; [exists None; split; auto; discriminate|].
  specialize (He eq_refl). pose proof (hexcount_nonneg s) as Hn. apply orb_false_iff in E0.
  destruct (nib_fill_safe s (balloc (Z.max (cnt / 2) m)) 0 0) as [b Hb].
  - lia.
  - lia.
  - rewrite zlen_balloc by lia. change (0 mod 2) with 0. lia.
  - rewrite Hb. cbn [bind]. exists (Some b). split; auto. intros b' H. apply some_inj in H. subst b'.
    apply nib_fill_inv in Hb; [|apply balloc_bytes]. destruct Hb as [Hl Hok].
    assert (zlen b = Z.max (cnt / 2) m) by (unfold zlen; rewrite Hl; fold (zlen (balloc (Z.max (cnt / 2) m))); apply zlen_balloc; lia).
    repeat split; auto; lia.
Qed.

Lemma parse_field_hex_safe : forall s k, 4 <= k ->
  exists o, parse_field_hex s k = Ret o /\ forall b, o = Some b -> zlen b = k /\ bytes_ok b.
Proof.
  intros s k Hk. unfold parse_field_hex.
  destruct (parse_var_bytes_hex_safe s 0) as [o [Ho Hb]]; [lia|]. rewrite Ho. cbn [bind].
  destruct o as [b|]; [|exists None; split; auto; discriminate].
  destruct (Hb b eq_refl) as [_ [H1 H2]].
  destruct (k <? zlen b) eqn:E; [exists None; split; auto; discriminate|].
  unfold memset_in. rewrite zlen_balloc by lia. replace (k <? 0 + 4) with false by lia. cbn [Z.ltb Z.compare orb bind].
  change (4 <? 0) with false. cbv iota. unfold memcpy_start.
  set (r1 := firstn (Z.to_nat 0) (balloc k) ++ _).
  assert (Hr : zlen r1 = k).
  { unfold r1, zlen, balloc. rewrite !app_length, firstn_length, skipn_length, !repeat_length. lia. }
  assert (Hrok : bytes_ok r1).
  { unfold r1. apply bytes_ok_app; split; [|apply bytes_ok_app; split].
    - cbn. constructor.
    - apply bytes_ok_repeat. unfold byte_ok; lia.
    - apply Forall_forall. intros x Hx. apply (Forall_forall byte_ok (balloc k)); [apply balloc_bytes|].
      rewrite <- (firstn_skipn (Z.to_nat (0 + 4)) (balloc k)). apply in_or_app; auto. }
  cbn [bind]. rewrite Hr. replace (k <? zlen b) with false by lia. cbn [bind].
  eexists. split; [reflexivity|]. intros b' H. apply some_inj in H. subst b'. split.
  - rewrite zlen_app. unfold zlen at 2. rewrite skipn_length. unfold zlen in *. lia.
  - apply bytes_ok_app; split; auto. apply Forall_forall. intros x Hx. apply (Forall_forall byte_ok r1); auto.
    rewrite <- (firstn_skipn (length b) r1). apply in_or_app; auto.
Qed.

(** *** The small parsers *)
Lemma parse_uint8_safe : forall s, exists o, parse_uint8 s = Ret o /\ forall x, o = Some x -> byte_ok x.
Proof.
  intros s. unfold parse_uint8. destruct (parse_bytes_safe8 s 1) as [o Ho]; [lia|]. rewrite Ho. cbn [bind].
  destruct o as [b|]; [|exists None; split; auto; discriminate].
  destruct (parse_bytes_len s 1 b ltac:(lia) Ho) as [Hl Hb].
  rewrite bget_ok by lia. cbn [bind]. eexists. split; [reflexivity|]. intros x Hx. apply some_inj in Hx. subst.
  apply bytes_ok_nth; auto.
Qed.

Lemma parse_uint32_safe : forall s, exists o, parse_uint32 s = Ret o /\ forall x, o = Some x -> 0 <= x < 2 ^ 32.
Proof.
  intros s. unfold parse_uint32. destruct (parse_bytes_safe8 s 4) as [o Ho]; [lia|]. rewrite Ho. cbn [bind].
  destruct o as [b|]; [|exists None; split; auto; discriminate].
  destruct (parse_bytes_len s 4 b ltac:(lia) Ho) as [Hl Hb].
  replace (zlen b <? 4) with false by lia. eexists. split; [reflexivity|]. intros x Hx. apply some_inj in Hx. subst.
  rewrite firstn_all2 by (unfold zlen in *; lia). pose proof (be_val_bound b Hb) as H. rewrite Hl in H. exact H.
Qed.

Lemma coap_code_ok : forall s b, coap_parse_code s = Some b -> zlen b = 1 /\ bytes_ok b.
Proof.
  intros s b H. unfold coap_parse_code in H. repeat (destruct s as [|? s]; try discriminate).
  match type of H with (if ?c then _ else _) = _ => destruct c; [|discriminate] end.
  match type of H with (if ?c then _ else _) = _ => destruct c; [|discriminate] end.
  apply some_inj in H. subst. split; [reflexivity|]. constructor; [apply u8_byte|constructor].
Qed.

Lemma opc16_safe : forall s, exists o, opc_parse_uint16 s = Ret o /\ forall b, o = Some b -> zlen b = 2 /\ bytes_ok b.
Proof.
  intros s. unfold opc_parse_uint16. destruct (parse_bytes_safe8 s 2) as [o Ho]; [lia|]. rewrite Ho. cbn [bind].
  destruct o as [b|]; [|exists None; split; auto; discriminate].
  destruct (parse_bytes_len s 2 b ltac:(lia) Ho) as [Hl Hb].
  rewrite !bget_ok by lia. cbn [bind]. rewrite bput_ok by lia. cbn [bind]. rewrite bput_ok by (rewrite zlen_upd; lia). cbn [bind].
  eexists. split; [reflexivity|]. intros x Hx. apply some_inj in Hx. subst. split; [rewrite !zlen_upd; auto|].
  apply upd_Forall; [apply upd_Forall; auto|]; apply bytes_ok_nth; auto.
Qed.

(** *** Variable length data *)
Lemma cnt_pattern_ok : forall n v, byte_ok v -> bytes_ok (cnt_pattern n v).
Proof. induction n as [|n IH]; intros v H; cbn [cnt_pattern]; constructor; auto. apply IH, u8_byte. Qed.

Lemma piece_safe : forall ws,
  parse_var_bytes_ ws = Crash Out_of_model \/
  exists r, parse_var_bytes_ ws = Ret r /\
    forall n b, r = VSome n b -> bytes_ok b /\ (2 <= n <= length ws)%nat.
Proof.
  intros ws. unfold parse_var_bytes_. destruct ws as [|w r]; [right; exists VNone; split; auto; discriminate|].
  repeat match goal with |- context [String.eqb w ?x] => destruct (String.eqb w x) end;
  try (right; eexists; split; [reflexivity|discriminate]).
  - destruct r as [|s r]; [right; eexists; split; [reflexivity|discriminate]|].
    destruct (parse_var_bytes_hex_safe s 0) as [o [Ho Hb]]; [lia|]. rewrite Ho. cbn [bind]. right. eexists. split; [reflexivity|].
    intros n b Hv. destruct o as [b0|]; [|discriminate]. cbn in Hv. inversion Hv; subst. split; [apply Hb; auto|cbn [length]; lia].
  - destruct r as [|s r]; [right; eexists; split; [reflexivity|discriminate]|]. right. eexists. split; [reflexivity|].
    intros n b Hv. inversion Hv; subst. split; [apply str_bytes_ok|cbn [length]; lia].
  - destruct r as [|s r]; [right; eexists; split; [reflexivity|discriminate]|]. right. eexists. split; [reflexivity|].
    intros n b Hv. inversion Hv; subst. split; [|cbn [length]; lia]. apply bytes_ok_app. split; [apply str_bytes_ok|].
    constructor; [unfold byte_ok; lia|constructor].
  - destruct r as [|s [|v r]]; try (right; eexists; split; [reflexivity|discriminate]).
    unfold parse_var_bytes_repeat. destruct (parse_uint32_safe s) as [o [Ho _]]. rewrite Ho. cbn [bind].
    destruct o as [cnt|]; [|right; eexists; split; [reflexivity|discriminate]].
    destruct (parse_uint8_safe v) as [ov [Hov Hb]]. rewrite Hov. cbn [bind].
    destruct ov as [x|]; [|right; eexists; split; [reflexivity|discriminate]].
    destruct (size_limit <? cnt); [left; reflexivity|]. right. eexists. split; [reflexivity|].
    intros n b Hv. inversion Hv; subst. split; [apply bytes_ok_repeat; auto|cbn [length]; lia].
  - destruct r as [|s [|v r]]; try (right; eexists; split; [reflexivity|discriminate]).
    unfold parse_var_bytes_pattern. destruct (parse_uint32_safe v) as [o [Ho _]]. rewrite Ho. cbn [bind].
    destruct o as [cnt|]; [|right; eexists; split; [reflexivity|discriminate]].
    destruct (size_limit <? cnt); [left; reflexivity|]. right.
    destruct (String.eqb s "cnt"); [|destruct (String.eqb s "zero"); [|destruct (String.eqb s "ones"); [|eexists; split; [reflexivity|discriminate]]]];
    (eexists; split; [reflexivity|]; intros n b Hv; inversion Hv; subst; split; [|cbn [length]; lia]).
    + apply cnt_pattern_ok. unfold byte_ok; lia.
    + apply bytes_ok_repeat. unfold byte_ok; lia.
    + apply bytes_ok_repeat. unfold byte_ok; lia.
Qed.

Lemma pvb_loop_safe : forall fuel ws i acc, (length ws < fuel)%nat ->
  (forall a, acc = Some a -> bytes_ok a) ->
  pvb_loop fuel ws i acc = Crash Out_of_model \/
  exists n ob, pvb_loop fuel ws i acc = Ret (n, ob) /\
    ((n = -1 /\ ob = None) \/
     (Z.of_nat i <= n <= Z.of_nat i + zlen ws /\ (forall b, ob = Some b -> bytes_ok b) /\
      (n = Z.of_nat i -> ob = acc) /\ (Z.of_nat i < n -> Z.of_nat i + 2 <= n /\ ob <> None))).
Proof.
  induction fuel as [|fuel IH]; intros ws i acc Hf Hacc; [lia|]. cbn [pvb_loop].
  destruct ws as [|w r].
  - right. exists (Z.of_nat i), acc. split; auto. right. unfold zlen; cbn [length]. repeat split; auto; lia.
  - destruct (piece_safe (w :: r)) as [E|[v [E Hv]]]; rewrite E; cbn [bind]; auto.
    destruct v as [| |n b].
    + right. exists (-1), None. auto.
    + right. exists (Z.of_nat i), acc. split; auto. right. unfold zlen. repeat split; auto; lia.
    + destruct (Hv n b eq_refl) as [Hb Hn].
      set (ws' := skipn n (w :: r)). assert (Hl : (length ws' + n = length (w :: r))%nat) by (unfold ws'; rewrite skipn_length; lia).
      destruct (IH ws' (i + n)%nat (Some (match acc with Some a => a ++ b | None => b end))) as [Hc|[m [ob [Hr Hor]]]].
      * lia.
      * intros a Ha. apply some_inj in Ha. subst a. destruct acc as [a|]; auto. apply bytes_ok_app; split; auto.
      * auto.
      * right. exists m, ob. split; auto. destruct Hor as [Hor|[H1 [H2 [H3 H4]]]]; auto.
        right. unfold zlen in *. split; [lia|split; [auto|split; [lia|]]].
        intros _. split; [lia|]. destruct (Z.eq_dec m (Z.of_nat (i + n))) as [Em|Em]; [rewrite (H3 Em); discriminate|apply H4; lia].
Qed.

Lemma pvb_safe : forall ws,
  parse_var_bytes ws = Crash Out_of_model \/
  exists n ob, parse_var_bytes ws = Ret (n, ob) /\
    ((n <= 0 /\ ob = None) \/ (2 <= n <= zlen ws /\ exists b, ob = Some b /\ bytes_ok b)).
Proof.
  intros ws. unfold parse_var_bytes.
  destruct (pvb_loop_safe (S (length ws)) ws 0 None) as [H|[n [ob [H Hor]]]]; auto; [discriminate|].
  right. exists n, ob. split; auto. destruct Hor as [[-> ->]|[H1 [H2 [H3 H4]]]]; [left; split; auto; lia|].
  destruct (Z.eq_dec n 0) as [->|]; [left; split; [lia|apply H3; auto]|].
  destruct H4 as [H4 H5]; [lia|]. right. split; [lia|]. destruct ob as [b|]; [|congruence]. exists b. auto.
Qed.

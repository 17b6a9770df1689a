(** Proofs about address texts: C04, C05, C06, C07. *)

From Verif Require Export PTextHex.

Lemma Forall2_length : forall A B (R : A -> B -> Prop) l l', Forall2 R l l' -> length l = length l'.
Proof. intros A B R l l' H. induction H; cbn; auto. Qed.

(** *** Reaching the address parsers *)

Definition hexcolon (c : ascii) : Prop := digit c <> None \/ c = ":"%char.

Lemma hexcolon_flags : forall s, Forall hexcolon (chars s) -> contains ":" s ->
  has_other (flags_of s) = false /\ has_dot (flags_of s) = false /\ has_colon (flags_of s) = true.
Proof.
  intros s H Hc. unfold flags_of; cbn [has_other has_dot has_colon]. rewrite !str_existsb_chars.
  repeat split.
  - apply not_true_is_false. intros E. apply existsb_exists in E. destruct E as [c [Hin E]].
    rewrite Forall_forall in H. destruct (H c Hin) as [Hd| ->]; [|discriminate].
    rewrite digit_hexval in Hd. apply class_hex in Hd. rewrite negb_true_iff in E.
    apply orb_false_iff in E. destruct E as [E _]. apply orb_false_iff in E. destruct E as [E _]. congruence.
  - apply not_true_is_false. intros E. apply existsb_exists in E. destruct E as [c [Hin E]].
    unfold is_dot in E. assert (c = "."%char) by (apply code_inj; cbn; lia). subst.
    rewrite Forall_forall in H. destruct (H _ Hin) as [Hd| Hd]; [|discriminate]. apply Hd. reflexivity.
  - apply existsb_exists. exists ":"%char. split; auto.
Qed.

Lemma hexcolon_no_prefix : forall s, Forall hexcolon (chars s) -> ~ starts_0b s -> split_prefix s = (None, s).
Proof.
  intros s H Hb. unfold split_prefix. destruct s as [|c1 [|c2 r]]; auto.
  destruct (code c1 =? 48) eqn:E1; auto.
  assert (c1 = "0"%char) by (apply code_inj; cbn; lia). subst.
  inversion H as [|? ? _ H1]; subst. inversion H1 as [|? ? H2 _]; subst.
  destruct (code c2 =? 120) eqn:E2.
  { assert (c2 = "x"%char) by (apply code_inj; cbn; lia). subst. destruct H2 as [H2|H2]; [exfalso; apply H2; reflexivity|discriminate]. }
  destruct (code c2 =? 111) eqn:E3.
  { assert (c2 = "o"%char) by (apply code_inj; cbn; lia). subst. destruct H2 as [H2|H2]; [exfalso; apply H2; reflexivity|discriminate]. }
  destruct (code c2 =? 98) eqn:E4; auto.
  assert (c2 = "b"%char) by (apply code_inj; cbn; lia). subst. exfalso. apply Hb. exists r. reflexivity.
Qed.

Lemma base_of_colon : forall p d, has_colon (flags_of d) = true -> base_of p (flags_of d) = 0.
Proof.
  intros p d H. unfold base_of. rewrite H. cbn [negb]. rewrite !andb_false_r. destruct p as [[]|]; auto.
Qed.

Lemma base_of_dot : forall p d, has_dot (flags_of d) = true -> base_of p (flags_of d) = 0.
Proof.
  intros p d H. unfold base_of. rewrite H. cbn [negb]. rewrite !andb_false_r. destruct p as [[]|]; auto.
Qed.

Lemma parse_bytes_colon : forall s, Forall hexcolon (chars s) -> contains ":" s -> ~ starts_0b s ->
  parse_bytes s 6 = parse_mac s /\ parse_bytes s 16 = Ret (inet_pton6 s).
Proof.
  intros s H Hc Hb. destruct (hexcolon_flags s H Hc) as [F1 [F2 F3]].
  unfold parse_bytes. rewrite (hexcolon_no_prefix s H Hb). rewrite base_of_colon by auto.
  cbn [Z.eqb negb andb Pos.eqb]. rewrite F1, F2, F3. cbn [negb andb]. auto.
Qed.

(** *** MAC addresses, texts made of groups *)

Lemma mac_loop_app : forall a b st, mac_loop (a ++ b)%string st =
  (o <- mac_loop a st;; match o with None => Ret None | Some st' => mac_loop b st' end).
Proof.
  induction a as [|c a IH]; intros b st; cbn [append mac_loop].
  - reflexivity.
  - destruct (mac_step c st) as [[st'|]|cr]; cbn [bind]; auto.
Qed.

Lemma mac_step_digit : forall c d pre post x i sp sc vc col el,
  digit c = Some d -> i = zlen pre -> 0 <= i <= 5 -> vc < 2 -> 0 <= x < 16 ->
  mac_step c (MkMac (pre ++ x :: post) i sp sc vc col el) =
  Ret (Some (MkMac (pre ++ (16 * x + d) :: post) i sp sc (vc + 1) 0 (if vc + 1 =? 1 then el + 1 else el))).
Proof.
  intros c d pre post x i sp sc vc col el Hd Hi Hr Hvc Hx. pose proof (digit_range _ _ Hd).
  rewrite digit_hexval in Hd. unfold mac_step. rewrite Hd.
  cbn [mc_m mc_idx mc_split mc_split_cnt mc_val_cnt mc_col_cnt mc_elem].
  replace (5 <? i) with false by lia. replace (2 <? vc + 1) with false by lia.
  rewrite bget_mid by auto. cbn [bind]. rewrite bput_mid by auto. cbn [bind].
  rewrite bget_mid by auto. cbn [bind]. rewrite bput_mid by auto. cbn [bind].
  rewrite Z.shiftl_mul_pow2 by lia. rewrite (u8_small (x * 2 ^ 4)) by lia.
  rewrite lor_disjoint by lia. rewrite u8_small by lia. do 3 f_equal. f_equal. f_equal. lia.
Qed.

Lemma positional_1 : forall d, positional 16 [d] = d.
Proof. intros. cbn [positional length Z.of_nat]. rewrite Z.pow_0_r. lia. Qed.

Lemma positional_2 : forall a b, positional 16 [a; b] = 16 * a + b.
Proof. intros. cbn [positional length]. change (Z.of_nat 0) with 0. change (Z.of_nat 1) with 1. rewrite Z.pow_0_r, Z.pow_1_r. lia. Qed.

Lemma mac_octet : forall t v pre post i sp sc col el,
  hex_group 2 t v -> i = zlen pre -> 0 <= i <= 5 ->
  exists vc, 1 <= vc <= 2 /\ 0 <= v < 256 /\
  mac_loop t (MkMac (pre ++ 0 :: post) i sp sc 0 col el) =
  Ret (Some (MkMac (pre ++ v :: post) i sp sc vc 0 (el + 1))).
Proof.
  intros t v pre post i sp sc col el [Hlen [ds [Hds ->]]] Hi Hr.
  destruct t as [|c1 [|c2 [|c3 t]]]; cbn [String.length] in Hlen; try lia.
  - inversion Hds as [|? d1 ? ? [H1 H1'] H2]; subst. inversion H2; subst.
    pose proof (digit_range _ _ H1).
    rewrite positional_1. exists 1. split; [lia|]. split; [lia|]. cbn [mac_loop].
    rewrite (mac_step_digit c1 d1) by (auto; lia). cbn [bind Z.eqb Z.add Pos.eqb].
    do 4 f_equal; lia.
  - inversion Hds as [|? d1 ? ? [H1 H1'] H2]; subst. inversion H2 as [|? d2 ? ? [H3 H3'] H4]; subst. inversion H4; subst.
    pose proof (digit_range _ _ H1). pose proof (digit_range _ _ H3).
    rewrite positional_2. exists 2. split; [lia|]. split; [lia|]. cbn [mac_loop].
    rewrite (mac_step_digit c1 d1) by (auto; lia). cbn [bind Z.eqb Z.add Pos.eqb].
    rewrite (mac_step_digit c2 d2) by (auto; lia). cbn [bind Z.eqb Z.add Pos.eqb Pos.add].
    do 4 f_equal; lia.
Qed.

Lemma mac_colon_after : forall m i sp sc vc el, 0 <= i <= 5 -> 1 <= vc ->
  mac_step ":" (MkMac m i sp sc vc 0 el) = Ret (Some (MkMac m (i + 1) sp sc 0 1 el)).
Proof.
  intros. unfold mac_step. cbn [hexval in_range]. 
  change (hexval ":") with (@None Z). cbn beta iota. change (code ":" =? 58) with true. cbn beta iota.
  cbn [mc_m mc_idx mc_split mc_split_cnt mc_val_cnt mc_col_cnt mc_elem].
  replace (5 <? i) with false by lia. replace (vc =? 0) with false by lia. reflexivity.
Qed.

Lemma mac_colon_first : forall m i sp sc el, 0 <= i <= 5 ->
  mac_step ":" (MkMac m i sp sc 0 0 el) = Ret (Some (MkMac m i sp sc 0 1 el)).
Proof.
  intros. unfold mac_step.
  change (hexval ":") with (@None Z). cbn beta iota. change (code ":" =? 58) with true. cbn beta iota.
  cbn [mc_m mc_idx mc_split mc_split_cnt mc_val_cnt mc_col_cnt mc_elem].
  replace (5 <? i) with false by lia. reflexivity.
Qed.

Lemma mac_colon_second : forall m i el, 0 <= i <= 5 ->
  mac_step ":" (MkMac m i 0 0 0 1 el) = Ret (Some (MkMac m i i 1 0 2 el)).
Proof.
  intros. unfold mac_step.
  change (hexval ":") with (@None Z). cbn beta iota. change (code ":" =? 58) with true. cbn beta iota.
  cbn [mc_m mc_idx mc_split mc_split_cnt mc_val_cnt mc_col_cnt mc_elem].
  replace (5 <? i) with false by lia. reflexivity.
Qed.

Lemma joined_cons : forall sep x l, l <> [] -> joined sep (x :: l) = (x ++ sep ++ joined sep l)%string.
Proof. intros sep x l H. destruct l; [congruence|reflexivity]. Qed.

Lemma mac_list : forall ts vs pre sp sc col el,
  Forall2 (hex_group 2) ts vs -> ts <> [] -> zlen pre + zlen vs <= 6 ->
  exists vc, 1 <= vc <= 2 /\
  mac_loop (joined ":" ts) (MkMac (pre ++ repeat 0 (6 - length pre)) (zlen pre) sp sc 0 col el) =
  Ret (Some (MkMac (pre ++ vs ++ repeat 0 (6 - length pre - length vs))
               (zlen pre + zlen vs - 1) sp sc vc 0 (el + zlen vs))).
Proof.
  induction ts as [|t ts IH]; intros vs pre sp sc col el H Hne Hle; [congruence|].
  inversion H as [|? v ? vs' Hg Hrest]; subst. rewrite zlen_cons in Hle.
  pose proof (zlen_nonneg _ pre). pose proof (zlen_nonneg _ vs').
  assert (Hrep : repeat 0 (6 - length pre) = 0 :: repeat 0 (6 - length pre - 1)).
  { replace (6 - length pre)%nat with (S (6 - length pre - 1)) at 1 by (unfold zlen in *; lia). reflexivity. }
  destruct (mac_octet t v pre (repeat 0 (6 - length pre - 1)) (zlen pre) sp sc col el Hg eq_refl) as [vc [Hvc [Hv Hstep]]]; [lia|].
  destruct ts as [|t2 ts].
  - inversion Hrest; subst. exists vc. split; auto. cbn [joined]. rewrite Hrep, Hstep.
    rewrite zlen_cons, zlen_nil. cbn [length app]. do 3 f_equal; lia.
  - rewrite joined_cons by discriminate. rewrite mac_loop_app, Hrep, Hstep. cbn [bind].
    change (":" ++ joined ":" (t2 :: ts))%string with (String ":" (joined ":" (t2 :: ts))).
    cbn [mac_loop]. assert (0 < zlen vs').
    { inversion Hrest; subst. rewrite zlen_cons. pose proof (zlen_nonneg _ l'). lia. }
    rewrite mac_colon_after by lia. cbn [bind].
    destruct (IH vs' (pre ++ [v]) sp sc 1 (el + 1) Hrest) as [vc' [Hvc' Hs]]; [discriminate|rewrite zlen_app, zlen_cons, zlen_nil; lia|].
    exists vc'. split; auto. rewrite app_length in Hs. cbn [length] in Hs.
    replace (zlen (pre ++ [v])) with (zlen pre + 1) in Hs by (rewrite zlen_app; reflexivity).
    replace (6 - (length pre + 1))%nat with (6 - length pre - 1)%nat in Hs by lia.
    rewrite <- !app_assoc in Hs. cbn [app] in Hs. rewrite Hs. rewrite zlen_cons.
    cbn [length app]. replace (6 - length pre - 1 - length vs')%nat with (6 - length pre - S (length vs'))%nat by lia.
    do 3 f_equal; lia.
Qed.

Lemma mac_list0 : forall ts vs, Forall2 (hex_group 2) ts vs -> ts <> [] -> zlen vs <= 6 ->
  exists vc, 1 <= vc <= 2 /\ mac_loop (joined ":" ts) mac_init =
  Ret (Some (MkMac (vs ++ repeat 0 (6 - length vs)) (zlen vs - 1) 0 0 vc 0 (zlen vs))).
Proof.
  intros ts vs H Hne Hle. destruct (mac_list ts vs [] 0 0 0 0 H Hne) as [vc [Hvc Hs]].
  - rewrite zlen_nil. lia.
  - exists vc. split; auto.
Qed.

Definition mac_end (st : mac_st) : out (option buf) :=
      if 1 <? mc_split_cnt st then Ret None
      else if 6 <? mc_elem st then Ret None
      else if (6 <=? mc_elem st) && (0 <? mc_split_cnt st) then Ret None
      else
        let from := mc_split st in
        let to := 6 - mc_elem st + mc_split st in
        let n := mc_elem st - mc_split st in
        m1 <- memmove_in (mc_m st) to from n;;
        m2 <- memset_in m1 (mc_split st) 0 (to - from);;
        Ret (Some m2).

Lemma parse_mac_end : forall s, parse_mac s =
  (o <- mac_loop s mac_init;; match o with None => Ret None | Some st => mac_end st end).
Proof. reflexivity. Qed.

(** The final move: octets before and after the split point. *)
Lemma mac_end_spec : forall p q i sc vc col, zlen p + zlen q <= 6 -> 0 <= sc <= 1 ->
  (sc = 0 -> p = []) -> (sc = 1 -> zlen p + zlen q <= 5) ->
  mac_end (MkMac (p ++ q ++ repeat 0 (6 - length p - length q)) i (zlen p) sc vc col (zlen p + zlen q)) =
  Ret (Some (p ++ repeat 0 (6 - length p - length q) ++ q)).
Proof.
  intros p q i sc vc col Hle Hsc H0 H1. unfold mac_end.
  cbn [mc_m mc_idx mc_split mc_split_cnt mc_val_cnt mc_col_cnt mc_elem].
  pose proof (zlen_nonneg _ p). pose proof (zlen_nonneg _ q).
  replace (1 <? sc) with false by lia. replace (6 <? zlen p + zlen q) with false by lia.
  replace ((6 <=? zlen p + zlen q) && (0 <? sc)) with false by lia.
  set (z := (6 - length p - length q)%nat).
  assert (Hz : zlen p + zlen q + Z.of_nat z = 6) by (unfold z, zlen in *; lia).
  replace (6 - (zlen p + zlen q) + zlen p) with (zlen p + Z.of_nat z) by lia.
  replace (zlen p + zlen q - zlen p) with (zlen q) by lia.
  assert (Hlen : zlen (p ++ q ++ repeat 0 z) = 6) by (rewrite !zlen_app, zlen_repeat; lia).
  unfold memmove_in. replace (zlen q <? 0) with false by lia. rewrite Hlen.
  replace ((zlen p <? 0) || (6 <? zlen p + zlen q)) with false by lia.
  replace ((zlen p + Z.of_nat z <? 0) || (6 <? zlen p + Z.of_nat z + zlen q)) with false by lia.
  cbn [bind]. rewrite !zlen_Z.
  replace (Z.to_nat (zlen p + Z.of_nat z)) with (length p + z)%nat by (unfold zlen; lia).
  replace (Z.to_nat (zlen p + Z.of_nat z + zlen q)) with 6%nat by (unfold zlen in *; lia).
  rewrite (skipn_all2 (n := 6)) by (unfold zlen in Hlen; lia). rewrite app_nil_r.
  rewrite (skipn_app (length p)), skipn_all, Nat.sub_diag. cbn [skipn app].
  rewrite (firstn_app (length q)), firstn_all, Nat.sub_diag. cbn [firstn]. rewrite app_nil_r.
  rewrite (firstn_app (length p + z)). replace (length p + z - length p)%nat with z by lia.
  rewrite (firstn_all2 (n := length p + z)) by lia.
  unfold memset_in. replace (zlen p + Z.of_nat z - zlen p) with (Z.of_nat z) by lia.
  replace (Z.of_nat z <? 0) with false by lia.
  set (x := firstn z (q ++ repeat 0 z)).
  assert (Hx : length x = z) by (unfold x; rewrite firstn_length, app_length, repeat_length; lia).
  replace ((zlen p <? 0) || (zlen ((p ++ x) ++ q) <? zlen p + Z.of_nat z)) with false.
  2: { rewrite !zlen_app. unfold zlen at 3 4. rewrite Hx. lia. }
  cbn [bind]. rewrite zlen_Z. rewrite <- app_assoc.
  rewrite (firstn_app (length p)), Nat.sub_diag, firstn_all. cbn [firstn]. rewrite app_nil_r.
  rewrite Nat2Z.id. replace (Z.to_nat (zlen p + Z.of_nat z)) with (length p + z)%nat by (unfold zlen; lia).
  rewrite skipn_app. rewrite (skipn_all2 (n := length p + z) p) by lia. cbn [app].
  replace (length p + z - length p)%nat with z by lia. rewrite skipn_app.
  rewrite <- Hx at 2. rewrite skipn_all. cbn [app]. rewrite Hx, Nat.sub_diag. reflexivity.
Qed.

Lemma hex_group_hexcolon : forall n t v, hex_group n t v -> Forall hexcolon (chars t).
Proof.
  intros n t v [_ [ds [H _]]]. unfold digits_of in H. induction H; constructor; auto.
  left. destruct H as [H _]. congruence.
Qed.

Lemma joined_hexcolon : forall n ts vs, Forall2 (hex_group n) ts vs -> Forall hexcolon (chars (joined ":" ts)).
Proof.
  intros n ts vs H. induction H as [|t v ts vs Hg Hr IH]; [constructor|].
  destruct ts as [|t2 ts]; cbn [joined].
  - eapply hex_group_hexcolon; eauto.
  - change (joined ":" (t2 :: ts)) with (joined ":" (t2 :: ts)) in IH. rewrite chars_app. apply Forall_app. split.
    + eapply hex_group_hexcolon; eauto.
    + cbn [append chars]. constructor; [right; auto|exact IH].
Qed.

Lemma mac_full : forall ts vs, Forall2 (hex_group 2) ts vs -> length vs = 6%nat ->
  ~ starts_0b (joined ":" ts) -> parse_bytes (joined ":" ts) 6 = Ret (Some vs).
Proof.
  intros ts vs H Hl Hb. assert (Hne : ts <> []) by (intros ->; inversion H; subst; discriminate).
  assert (Hcol : contains ":" (joined ":" ts)).
  { pose proof (Forall2_length _ _ _ _ _ H) as Hlen. destruct ts as [|t1 [|t2 ts]]; cbn in Hlen; try lia.
    rewrite joined_cons by discriminate. unfold contains. rewrite chars_app. apply in_or_app. right. left. auto. }
  destruct (parse_bytes_colon _ (joined_hexcolon _ _ _ H) Hcol Hb) as [-> _].
  rewrite parse_mac_end. destruct (mac_list0 ts vs H Hne) as [vc [_ ->]]; [unfold zlen; lia|]. cbn [bind].
  pose proof (mac_end_spec [] vs (zlen vs - 1) 0 vc 0) as He. cbn [app length] in He.
  rewrite zlen_nil in He. rewrite Z.add_0_l in He.
  replace (6 - 0 - length vs)%nat with (6 - length vs)%nat in He by lia.
  rewrite He; auto; try (unfold zlen; lia). rewrite Hl. reflexivity.
Qed.

(** Fewer than six octets without '::' are right aligned. *)
Lemma mac_short : forall ts vs, Forall2 (hex_group 2) ts vs -> (2 <= length vs <= 6)%nat ->
  ~ starts_0b (joined ":" ts) -> parse_bytes (joined ":" ts) 6 = Ret (Some (zeros (6 - length vs) ++ vs)).
Proof.
  intros ts vs H Hl Hb. assert (Hne : ts <> []) by (intros ->; inversion H; subst; cbn in Hl; lia).
  assert (Hcol : contains ":" (joined ":" ts)).
  { pose proof (Forall2_length _ _ _ _ _ H) as Hlen. destruct ts as [|t1 [|t2 ts]]; cbn in Hlen; try lia.
    rewrite joined_cons by discriminate. unfold contains. rewrite chars_app. apply in_or_app. right. left. auto. }
  destruct (parse_bytes_colon _ (joined_hexcolon _ _ _ H) Hcol Hb) as [-> _].
  rewrite parse_mac_end. destruct (mac_list0 ts vs H Hne) as [vc [_ ->]]; [unfold zlen; lia|]. cbn [bind].
  pose proof (mac_end_spec [] vs (zlen vs - 1) 0 vc 0) as He. cbn [app length] in He.
  rewrite zlen_nil in He. rewrite Z.add_0_l in He.
  replace (6 - 0 - length vs)%nat with (6 - length vs)%nat in He by lia.
  rewrite He; auto; try (unfold zlen; lia).
Qed.

Lemma mac_split_text : forall tp tq p q,
  Forall2 (hex_group 2) tp p -> Forall2 (hex_group 2) tq q -> (length p + length q <= 5)%nat ->
  ~ starts_0b (joined ":" tp) ->
  parse_bytes (joined ":" tp ++ "::" ++ joined ":" tq) 6 =
  Ret (Some (p ++ zeros (6 - length p - length q) ++ q)).
Proof.
  intros tp tq p q Hp Hq Hle Hb.
  assert (Hhc : Forall hexcolon (chars (joined ":" tp ++ "::" ++ joined ":" tq))).
  { rewrite !chars_app. apply Forall_app. split; [eapply joined_hexcolon; eauto|].
    cbn [chars app]. repeat (constructor; [right; auto|]). eapply joined_hexcolon; eauto. }
  assert (Hcol : contains ":" (joined ":" tp ++ "::" ++ joined ":" tq)).
  { unfold contains. rewrite chars_app. apply in_or_app. right. left. auto. }
  assert (Hb' : ~ starts_0b (joined ":" tp ++ "::" ++ joined ":" tq)).
  { intros [r Hr]. destruct (joined ":" tp) as [|c1 [|c2 u]].
    - discriminate.
    - cbn [append] in Hr. inversion Hr.
    - cbn [append] in Hr. inversion Hr; subst. apply Hb. exists u. reflexivity. }
  destruct (parse_bytes_colon _ Hhc Hcol Hb') as [-> _].
  rewrite parse_mac_end, mac_loop_app.
  assert (Hpq : zlen p + zlen q <= 5) by (unfold zlen; lia).
  pose proof (zlen_nonneg _ p). pose proof (zlen_nonneg _ q).
  (* after the first part and the double colon *)
  assert (Hmid : (o <- mac_loop (joined ":" tp) mac_init;;
                  match o with None => Ret None | Some st' => mac_loop ("::" ++ joined ":" tq) st' end)
                 = mac_loop (joined ":" tq) (MkMac (p ++ repeat 0 (6 - length p)) (zlen p) (zlen p) 1 0 2 (zlen p))).
  { destruct tp as [|t tp].
    - inversion Hp; subst. cbn [joined mac_loop bind append]. unfold mac_init at 1.
      rewrite mac_colon_first by lia. cbn [bind]. rewrite mac_colon_second by lia. reflexivity.
    - destruct (mac_list0 (t :: tp) p Hp) as [vc [Hvc ->]]; [discriminate|lia|]. cbn [bind].
      assert (0 < zlen p) by (inversion Hp; subst; rewrite zlen_cons; pose proof (zlen_nonneg _ l'); lia).
      cbn [append mac_loop]. rewrite mac_colon_after by lia. cbn [bind].
      rewrite mac_colon_second by lia. cbn [bind]. do 2 f_equal; lia. }
  rewrite Hmid. destruct tq as [|t tq].
  - inversion Hq; subst. cbn [joined mac_loop bind].
    pose proof (mac_end_spec p [] (zlen p) 1 0 2) as He. cbn [app length] in He. rewrite zlen_nil, Z.add_0_r in He.
    replace (6 - length p - 0)%nat with (6 - length p)%nat in He by lia. rewrite He; auto; try lia.
    cbn [length]. replace (6 - length p - 0)%nat with (6 - length p)%nat by lia. reflexivity.
  - destruct (mac_list (t :: tq) q p (zlen p) 1 2 (zlen p) Hq) as [vc [Hvc ->]]; [discriminate|lia|].
    cbn [bind]. rewrite mac_end_spec; auto; try lia.
Qed.

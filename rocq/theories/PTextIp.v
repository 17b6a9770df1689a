(** IPv4 and IPv6 address texts: C06, C07; sizes of parsed values: C03. *)

From Verif Require Export PTextMac.

(** *** IPv4 *)

Definition octet_list : list Z := map Z.of_nat (seq 0 256).

Lemma octet_list_in : forall a, 0 <= a < 256 -> In a octet_list.
Proof. intros a H. unfold octet_list. apply in_map_iff. exists (Z.to_nat a). split; [lia|]. apply in_seq. lia. Qed.

Lemma pton4_octet_go : Forall (fun a => forall rest oct done, oct < 4 ->
  inet_pton4_loop (decimal a ++ rest) oct done None = inet_pton4_loop rest (oct + 1) done (Some a)) octet_list.
Proof.
  let l := eval vm_compute in octet_list in change octet_list with l.
  repeat (constructor;
    [intros rest oct done Ho;
     match goal with |- inet_pton4_loop (decimal ?a ++ _) _ _ _ = _ =>
       let d := eval vm_compute in (decimal a) in change (decimal a) with d end;
     cbn [append inet_pton4_loop];
     cbn -[Z.ltb Z.leb Z.add inet_pton4_loop];
     replace (4 <? oct + 1) with false by lia; reflexivity|]).
  constructor.
Qed.

Lemma pton4_octet : forall a rest oct done, 0 <= a < 256 -> oct < 4 ->
  inet_pton4_loop (decimal a ++ rest) oct done None = inet_pton4_loop rest (oct + 1) done (Some a).
Proof.
  intros a rest oct done Ha Ho. pose proof pton4_octet_go as H. rewrite Forall_forall in H.
  apply (H a (octet_list_in a Ha)); auto.
Qed.

Lemma pton4_dot : forall rest oct done v, oct <> 4 ->
  inet_pton4_loop (String "." rest) oct done (Some v) = inet_pton4_loop rest oct (done ++ [v]) None.
Proof.
  intros. cbn [inet_pton4_loop]. change (in_range 48 57 ".") with false. change (code "." =? 46) with true.
  cbn iota. replace (oct =? 4) with false by lia. auto.
Qed.

Definition quad (a b c d : Z) : string :=
  (decimal a ++ "." ++ decimal b ++ "." ++ decimal c ++ "." ++ decimal d)%string.

Lemma pton4_quad : forall a b c d, is_byte a -> is_byte b -> is_byte c -> is_byte d ->
  inet_pton4 (quad a b c d) = Some [a; b; c; d].
Proof.
  intros a b c d Ha Hb Hc Hd. unfold inet_pton4, quad, is_byte in *.
  rewrite pton4_octet by lia. cbn [append]. rewrite pton4_dot by lia.
  rewrite pton4_octet by lia. cbn [append]. rewrite pton4_dot by lia.
  rewrite pton4_octet by lia. cbn [append]. rewrite pton4_dot by lia.
  rewrite <- (str_app_nil (decimal d)). rewrite pton4_octet by lia. reflexivity.
Qed.

Lemma decimal_digits_go : forallb (fun a => forallb (fun c => dig_in 10 c) (chars (decimal a))
   && negb (String.eqb (decimal a) "")) octet_list = true.
Proof. vm_compute. reflexivity. Qed.

Lemma decimal_digits : forall a, 0 <= a < 256 -> Forall (fun c => dig_in 10 c = true) (chars (decimal a)).
Proof.
  intros a H. pose proof decimal_digits_go as G. rewrite forallb_forall in G.
  specialize (G a (octet_list_in a H)). apply andb_prop in G. destruct G as [G _].
  rewrite forallb_forall in G. apply Forall_forall. auto.
Qed.

Definition digdot (c : ascii) : Prop := dig_in 10 c = true \/ c = "."%char.

Lemma quad_digdot : forall a b c d, is_byte a -> is_byte b -> is_byte c -> is_byte d ->
  Forall digdot (chars (quad a b c d)).
Proof.
  intros a b c d Ha Hb Hc Hd. unfold quad. rewrite !chars_app.
  assert (G : forall x, is_byte x -> Forall digdot (chars (decimal x))).
  { intros x Hx. eapply Forall_impl; [|apply decimal_digits; auto]. intros y Hy. left. auto. }
  assert (D : Forall digdot (chars ".")) by (constructor; [right; auto|constructor]).
  repeat (apply Forall_app; split; auto).
Qed.

Lemma digdot_no_prefix : forall s, Forall digdot (chars s) -> split_prefix s = (None, s).
Proof.
  intros s H. unfold split_prefix. destruct s as [|c1 [|c2 r]]; auto.
  destruct (code c1 =? 48) eqn:E1; auto.
  inversion H as [|? ? _ H1]; subst. inversion H1 as [|? ? H2 _]; subst.
  destruct (code c2 =? 120) eqn:E2.
  { assert (c2 = "x"%char) by (apply code_inj; cbn; lia). subst. destruct H2 as [H2|H2]; discriminate. }
  destruct (code c2 =? 111) eqn:E3.
  { assert (c2 = "o"%char) by (apply code_inj; cbn; lia). subst. destruct H2 as [H2|H2]; discriminate. }
  destruct (code c2 =? 98) eqn:E4; auto.
  assert (c2 = "b"%char) by (apply code_inj; cbn; lia). subst. destruct H2 as [H2|H2]; discriminate.
Qed.

Lemma digdot_class : forall c, digdot c ->
  is_colon c = false /\ negb (in_base2 c || in_base8 c || in_base10 c || in_base16 c || is_dot c || is_colon c) = false.
Proof.
  intros c [H|H].
  - pose proof (class_table c) as T. cbv zeta in T. rewrite !andb_true_iff, !eqb_true_iff in T.
    destruct T as [[[_ T] _] _]. rewrite H in T. symmetry in T. rewrite negb_true_iff in T.
    apply orb_false_iff in T. destruct T as [T _]. apply orb_false_iff in T. destruct T as [T Tc].
    apply orb_false_iff in T. destruct T as [T _]. auto.
  - subst. split; reflexivity.
Qed.

Lemma digdot_flags : forall s, Forall digdot (chars s) ->
  has_other (flags_of s) = false /\ has_colon (flags_of s) = false.
Proof.
  intros s H. unfold flags_of; cbn [has_other has_colon]. rewrite !str_existsb_chars.
  rewrite Forall_forall in H.
  split; apply not_true_is_false; intros E; apply existsb_exists in E; destruct E as [c [Hin E]];
    destruct (digdot_class c (H c Hin)); congruence.
Qed.

Lemma contains_dot_flag : forall s, contains "." s -> has_dot (flags_of s) = true.
Proof.
  intros s H. unfold flags_of; cbn [has_dot]. rewrite str_existsb_chars. apply existsb_exists.
  exists "."%char. split; auto.
Qed.

Lemma quad_dot : forall a b c d, contains "." (quad a b c d).
Proof. intros. unfold contains, quad. rewrite chars_app. apply in_or_app. right. left. auto. Qed.

Lemma quad_parsed : forall a b c d, is_byte a -> is_byte b -> is_byte c -> is_byte d ->
  parse_bytes (quad a b c d) 4 = Ret (Some [a; b; c; d]).
Proof.
  intros a b c d Ha Hb Hc Hd. pose proof (quad_digdot a b c d Ha Hb Hc Hd) as Hq.
  destruct (digdot_flags _ Hq) as [F1 F2]. pose proof (contains_dot_flag _ (quad_dot a b c d)) as F3.
  unfold parse_bytes. rewrite digdot_no_prefix by auto. rewrite base_of_dot by auto.
  cbn [Z.eqb Pos.eqb negb andb]. rewrite F1, F2, F3. cbn [negb andb]. rewrite pton4_quad; auto.
Qed.

(** Backwards: an accepted string is a dotted quad. *)

Lemma decimal_snoc_go : forallb (fun v => forallb (fun d =>
   String.eqb (decimal (v * 10 + d)) (decimal v ++ String (chr (48 + d)) "")) (map Z.of_nat (seq 0 10)))
   (map Z.of_nat (seq 1 25)) = true.
Proof. vm_compute. reflexivity. Qed.

Lemma decimal_snoc : forall v d, 1 <= v -> 0 <= d < 10 -> v * 10 + d <= 255 ->
  decimal (v * 10 + d) = (decimal v ++ String (chr (48 + d)) "")%string.
Proof.
  intros v d Hv Hd Hle. pose proof decimal_snoc_go as G. rewrite forallb_forall in G.
  assert (Hin : In v (map Z.of_nat (seq 1 25))).
  { apply in_map_iff. exists (Z.to_nat v). split; [lia|]. apply in_seq. lia. }
  specialize (G v Hin). rewrite forallb_forall in G.
  assert (Hin2 : In d (map Z.of_nat (seq 0 10))).
  { apply in_map_iff. exists (Z.to_nat d). split; [lia|]. apply in_seq. lia. }
  specialize (G d Hin2). apply String.eqb_eq in G. auto.
Qed.

Lemma decimal_digit_go : forallb (fun d => String.eqb (decimal d) (String (chr (48 + d)) "")) (map Z.of_nat (seq 0 10)) = true.
Proof. vm_compute. reflexivity. Qed.

Lemma decimal_digit : forall d, 0 <= d < 10 -> decimal d = String (chr (48 + d)) "".
Proof.
  intros d Hd. pose proof decimal_digit_go as G. rewrite forallb_forall in G.
  assert (Hin2 : In d (map Z.of_nat (seq 0 10))).
  { apply in_map_iff. exists (Z.to_nat d). split; [lia|]. apply in_seq. lia. }
  specialize (G d Hin2). apply String.eqb_eq in G. auto.
Qed.

Lemma chr_code : forall c, chr (code c) = c.
Proof. intros c. apply code_inj. apply code_chr. apply code_range. Qed.

(** One octet in progress. *)
Lemma pton4_cur : forall s oct done v l, 0 <= v <= 255 ->
  inet_pton4_loop s oct done (Some v) = Some l ->
  exists t v', 0 <= v' <= 255 /\ decimal v' = (decimal v ++ t)%string /\
   ((s = t /\ 4 <= oct /\ l = done ++ [v']) \/
    (exists r, s = (t ++ "." ++ r)%string /\ oct <> 4 /\ inet_pton4_loop r oct (done ++ [v']) None = Some l)).
Proof.
  induction s as [|c s IH]; intros oct done v l Hv H; cbn [inet_pton4_loop] in H.
  - destruct (oct <? 4) eqn:E; [discriminate|]. inversion H; subst.
    exists "", v. split; [auto|]. split; [rewrite str_app_nil; auto|]. left. repeat split; auto. lia.
  - destruct (in_range 48 57 c) eqn:Er.
    + destruct (v =? 0) eqn:E0; [discriminate|].
      destruct (255 <? v * 10 + (code c - 48)) eqn:E255; [discriminate|].
      unfold in_range in Er.
      assert (Hr : 0 <= v * 10 + (code c - 48) <= 255) by lia.
      destruct (IH _ _ _ _ Hr H) as [t [v' [Hv' [Hd Hcase]]]].
      exists (String c t), v'. split; auto. split.
      * rewrite Hd, decimal_snoc by lia. rewrite str_app_assoc. cbn [append].
        replace (48 + (code c - 48)) with (code c) by lia. rewrite chr_code. auto.
      * destruct Hcase as [[-> Hc]|[r [-> Hc]]]; [left; auto|right; exists r; auto].
    + destruct (code c =? 46) eqn:E46; [|discriminate].
      destruct (oct =? 4) eqn:E4; [discriminate|].
      assert (c = "."%char) by (apply code_inj; cbn; lia). subst c.
      exists "", v. split; [auto|]. split; [rewrite str_app_nil; auto|]. right. exists s. repeat split; auto. lia.
Qed.

Lemma pton4_none : forall s oct done l, oct < 4 ->
  inet_pton4_loop s oct done None = Some l ->
  exists v, 0 <= v <= 255 /\
   ((s = decimal v /\ 4 <= oct + 1 /\ l = done ++ [v]) \/
    (exists r, s = (decimal v ++ "." ++ r)%string /\ oct + 1 <> 4 /\ inet_pton4_loop r (oct + 1) (done ++ [v]) None = Some l)).
Proof.
  intros s oct done l Ho H. destruct s as [|c s]; cbn [inet_pton4_loop] in H.
  - replace (oct <? 4) with true in H by lia. discriminate.
  - destruct (in_range 48 57 c) eqn:Er.
    + replace (4 <? oct + 1) with false in H by lia. unfold in_range in Er.
      destruct (pton4_cur s (oct + 1) done (code c - 48) l ltac:(lia) H) as [t [v' [Hv' [Hd Hcase]]]].
      rewrite (decimal_digit (code c - 48)) in Hd by lia. replace (48 + (code c - 48)) with (code c) in Hd by lia.
      rewrite chr_code in Hd. cbn [append] in Hd.
      exists v'. split; auto. destruct Hcase as [[-> [H1 H2]]|[r [-> [H1 H2]]]].
      * left. rewrite Hd. repeat split; auto.
      * right. exists r. rewrite Hd. cbn [append]. repeat split; auto.
    + destruct (code c =? 46); discriminate.
Qed.

Lemma pton4_only : forall s l, inet_pton4 s = Some l ->
  exists a b c d, is_byte a /\ is_byte b /\ is_byte c /\ is_byte d /\ s = quad a b c d /\ l = [a; b; c; d].
Proof.
  intros s l H. unfold inet_pton4 in H.
  apply pton4_none in H; [|lia]. destruct H as [a [Ha [[_ [Hc _]]|[r1 [Hs1 [_ H]]]]]]; [lia|].
  apply pton4_none in H; [|lia]. destruct H as [b [Hb [[_ [Hc _]]|[r2 [Hs2 [_ H]]]]]]; [lia|].
  apply pton4_none in H; [|lia]. destruct H as [c [Hc [[_ [Hc' _]]|[r3 [Hs3 [_ H]]]]]]; [lia|].
  apply pton4_none in H; [|lia]. destruct H as [d [Hd [[Hs4 [_ Hl]]|[r4 [_ [Hc' _]]]]]]; [|lia].
  exists a, b, c, d. unfold is_byte. repeat split; try lia.
  - subst. reflexivity.
  - subst. reflexivity.
Qed.

Lemma dotted_accepted : forall s l, contains "." s -> parse_bytes s 4 = Ret (Some l) ->
  exists a b c d, is_byte a /\ is_byte b /\ is_byte c /\ is_byte d /\ s = quad a b c d /\ l = [a; b; c; d].
Proof.
  intros s l Hdot H. unfold parse_bytes in H. destruct (split_prefix s) as [p d] eqn:Esp.
  pose proof (split_prefix_radix _ _ _ Esp) as Hs.
  assert (Hd : has_dot (flags_of d) = true).
  { apply contains_dot_flag. rewrite Hs in Hdot. unfold contains in *. rewrite chars_app in Hdot.
    apply in_app_or in Hdot. destruct Hdot as [Hdot|Hdot]; auto.
    exfalso. destruct p as [[]|]; cbn in Hdot; intuition discriminate. }
  rewrite base_of_dot in H by auto. cbn [Z.eqb Pos.eqb negb andb] in H.
  destruct p; [discriminate|]. cbn in Hs. subst d.
  destruct (negb (has_other (flags_of s)) && negb (has_colon (flags_of s)) && has_dot (flags_of s)); [|discriminate].
  inversion H. apply pton4_only; auto.
Qed.

(** *** IPv6 *)

Lemma pton6_digits : forall t ds rest tok o colon nd val,
  digits_of 16 t ds -> nd + zlen ds <= 4 -> 0 <= val < 16 ^ nd -> 0 <= nd ->
  inet_pton6_loop (t ++ rest) tok o colon nd val =
  inet_pton6_loop rest tok o colon (nd + zlen ds) (val * 16 ^ zlen ds + positional 16 ds).
Proof.
  induction t as [|c t IH]; intros ds rest tok o colon nd val H Hnd Hval H0; inversion H; subst.
  - cbn [append positional]. rewrite zlen_nil. f_equal; cbn; lia.
  - destruct H3 as [Hd Hlt]. pose proof (digit_range _ _ Hd). rewrite digit_hexval in Hd.
    rewrite zlen_cons in Hnd. pose proof (zlen_nonneg _ l').
    cbn [append inet_pton6_loop]. rewrite Hd. replace (nd =? 4) with false by lia.
    assert (Hp : 16 ^ (nd + 1) = 16 * 16 ^ nd) by (rewrite Z.pow_add_r by lia; lia).
    replace (Z.lor (Z.shiftl val 4) y) with (16 * val + y).
    2: { rewrite Z.shiftl_mul_pow2 by lia. replace (val * 2 ^ 4) with (16 * val) by lia. rewrite lor_16; auto. }
    rewrite (IH l') by (auto; lia). rewrite zlen_cons. f_equal; [lia|].
    rewrite Z.pow_add_r by lia. cbn [positional]. fold (zlen l'). lia.
Qed.

Lemma pton6_group : forall t g rest tok o colon, hex_group 4 t g ->
  0 <= g < 65536 /\ exists nd, 1 <= nd <= 4 /\
  inet_pton6_loop (t ++ rest) tok o colon 0 0 = inet_pton6_loop rest tok o colon nd g.
Proof.
  intros t g rest tok o colon [Hlen [ds [Hds ->]]].
  assert (Hl : length ds = String.length t) by (rewrite <- chars_length; symmetry; eapply Forall2_length; eauto).
  assert (Hz : 1 <= zlen ds <= 4) by (unfold zlen; lia).
  split.
  - assert (Hb : forall b, 0 <= positional 16 b < 16 ^ zlen b \/ ~ Forall (fun d => 0 <= d < 16) b).
    { induction b as [|x b IHb]; [left; cbn; lia|].
      destruct IHb as [IHb|IHb]; [|right; intros F; inversion F; auto].
      destruct (Z_le_dec 0 x); [|right; intros F; inversion F; lia].
      destruct (Z_lt_dec x 16); [|right; intros F; inversion F; lia].
      left. cbn [positional]. rewrite zlen_cons, Z.pow_add_r by (try apply zlen_nonneg; lia). fold (zlen b). nia. }
    destruct (Hb ds) as [Hb'|Hb'].
    + assert (16 ^ zlen ds <= 16 ^ 4) by (apply Z.pow_le_mono_r; lia). lia.
    + exfalso. apply Hb'. clear - Hds. unfold digits_of in Hds. induction Hds; constructor; auto.
      destruct H as [H _]. apply digit_range in H. auto.
  - exists (zlen ds). split; auto. rewrite (pton6_digits t ds) by (auto; cbn; lia). f_equal; lia.
Qed.

Lemma pton6_sep : forall r tok o colon nd g, 1 <= nd -> r <> ""%string -> zlen o + 2 <= 16 -> 0 <= g < 65536 ->
  inet_pton6_loop (String ":" r) tok o colon nd g = inet_pton6_loop r r (o ++ group_bytes g) colon 0 0.
Proof.
  intros r tok o colon nd g Hnd Hr Ho Hg. cbn [inet_pton6_loop].
  change (hexval ":") with (@None Z). change (code ":" =? 58) with true. cbn iota.
  replace (nd =? 0) with false by lia. destruct r; [congruence|].
  replace (16 <? zlen o + 2) with false by lia.
  unfold group_bytes. rewrite Z.shiftr_div_pow2 by lia. unfold u8.
  replace ((g / 2 ^ 8) mod 256) with (g / 256); auto. rewrite Z.mod_small; auto. change (2 ^ 8) with 256. lia.
Qed.

Lemma pton6_double : forall r tok o, inet_pton6_loop (String ":" r) tok o None 0 0 = inet_pton6_loop r r o (Some (length o)) 0 0.
Proof. reflexivity. Qed.

Definition groups_bytes (gs : list Z) : list Z := flat_map group_bytes gs.

Lemma groups_bytes_len : forall gs, length (groups_bytes gs) = (2 * length gs)%nat.
Proof.
  induction gs; [reflexivity|]. unfold groups_bytes in *. cbn [flat_map]. rewrite app_length, IHgs. cbn. lia.
Qed.

Lemma groups_bytes_zlen : forall gs, zlen (groups_bytes gs) = 2 * zlen gs.
Proof. intros. unfold zlen. rewrite groups_bytes_len. lia. Qed.

Lemma joined_nonempty : forall n ts vs, Forall2 (hex_group n) ts vs -> ts <> [] -> joined ":" ts <> ""%string.
Proof.
  intros n ts vs H Hne E. inversion H as [|t v ts' vs' Hg Hr]; subst; [congruence|].
  destruct Hg as [Hl _]. destruct t as [|c t]; [cbn in Hl; lia|]. destruct ts'; discriminate.
Qed.

(** A list of groups followed by [rest]: the last group is still in progress. *)
Lemma pton6_groups : forall ts gs rest tok o colon,
  Forall2 (hex_group 4) ts gs -> ts <> [] -> zlen o + 2 * zlen gs <= 16 ->
  exists nd tok' init g, gs = init ++ [g] /\ 1 <= nd <= 4 /\ 0 <= g < 65536 /\
  inet_pton6_loop (joined ":" ts ++ rest) tok o colon 0 0 =
  inet_pton6_loop rest tok' (o ++ groups_bytes init) colon nd g.
Proof.
  induction ts as [|t ts IH]; intros gs rest tok o colon H Hne Hle; [congruence|].
  inversion H as [|? g ? gs' Hg Hr]; subst. rewrite zlen_cons in Hle.
  destruct ts as [|t2 ts].
  - inversion Hr; subst. cbn [joined].
    destruct (pton6_group t g rest tok o colon Hg) as [Hgr [nd [Hnd Hs]]].
    exists nd, tok, [], g. repeat split; auto; try lia. cbn [groups_bytes flat_map]. rewrite app_nil_r. auto.
  - rewrite joined_cons by discriminate. rewrite str_app_assoc.
    destruct (pton6_group t g ((":" ++ joined ":" (t2 :: ts)) ++ rest) tok o colon Hg) as [Hgr [nd [Hnd Hs]]].
    rewrite Hs. cbn [append]. assert (Hg2 : zlen gs' >= 1).
    { inversion Hr; subst. rewrite zlen_cons. pose proof (zlen_nonneg _ l'). lia. }
    assert (Hne2 : (joined ":" (t2 :: ts) ++ rest)%string <> ""%string).
    { intros E. apply (joined_nonempty _ _ _ Hr); [discriminate|]. destruct (joined ":" (t2 :: ts)); [auto|discriminate]. }
    rewrite pton6_sep by (auto; lia).
    destruct (IH gs' rest (joined ":" (t2 :: ts) ++ rest)%string (o ++ group_bytes g) colon Hr) as [nd' [tok' [init [g' [E1 [E2 [E3 E4]]]]]]];
      [discriminate|rewrite zlen_app; change (zlen (group_bytes g)) with 2; lia|].
    exists nd', tok', (g :: init), g'. subst gs'. repeat split; auto; try lia.
    rewrite E4. cbn [groups_bytes flat_map]. rewrite <- app_assoc. auto.
Qed.

Lemma pton6_groups0 : forall ts gs rest,
  Forall2 (hex_group 4) ts gs -> ts <> [] -> 2 * zlen gs <= 16 ->
  inet_pton6 (joined ":" ts ++ rest) = inet_pton6_loop (joined ":" ts ++ rest) (joined ":" ts ++ rest) [] None 0 0.
Proof.
  intros ts gs rest H Hne Hle. inversion H as [|t v ts' vs' Hg Hr]; subst; [congruence|].
  destruct Hg as [Hl [ds [Hds _]]]. destruct t as [|c t]; [cbn in Hl; lia|].
  assert (E : exists u, (joined ":" (String c t :: ts') ++ rest)%string = String c u).
  { destruct ts'; cbn [joined append]; eauto. }
  destruct E as [u ->]. unfold inet_pton6. inversion Hds as [|? ? ? ? [Hd _] _]; subst.
  replace (code c =? 58) with false; auto. rewrite code_colon. symmetry. apply Ascii.eqb_neq. intros ->. discriminate.
Qed.

Lemma finish_group : forall o colon nd g, 1 <= nd -> 0 <= g < 65536 -> zlen o + 2 <= 16 ->
  pton6_finish o colon nd g = pton6_finish (o ++ group_bytes g) colon 0 0.
Proof.
  intros o colon nd g Hnd Hg Ho. unfold pton6_finish. replace (0 <? nd) with true by lia.
  replace (16 <? zlen o + 2) with false by lia. cbn [Z.ltb Z.compare].
  unfold group_bytes. rewrite Z.shiftr_div_pow2 by lia. unfold u8.
  replace ((g / 2 ^ 8) mod 256) with (g / 256); auto. rewrite Z.mod_small; auto. change (2 ^ 8) with 256. lia.
Qed.

Lemma groups_bytes_app : forall a b, groups_bytes (a ++ b) = groups_bytes a ++ groups_bytes b.
Proof. intros. unfold groups_bytes. apply flat_map_app. Qed.

Lemma ipv6_full : forall ts gs, Forall2 (hex_group 4) ts gs -> length gs = 8%nat ->
  ~ starts_0b (joined ":" ts) -> parse_bytes (joined ":" ts) 16 = Ret (Some (groups_bytes gs)).
Proof.
  intros ts gs H Hl Hb. assert (Hne : ts <> []) by (intros ->; inversion H; subst; discriminate).
  assert (Hcol : contains ":" (joined ":" ts)).
  { pose proof (Forall2_length _ _ _ _ _ H) as Hlen. destruct ts as [|t1 [|t2 ts]]; cbn in Hlen; try lia.
    rewrite joined_cons by discriminate. unfold contains. rewrite chars_app. apply in_or_app. right. left. auto. }
  destruct (parse_bytes_colon _ (joined_hexcolon _ _ _ H) Hcol Hb) as [_ ->]. f_equal.
  rewrite <- (str_app_nil (joined ":" ts)).
  rewrite (pton6_groups0 ts gs) by (auto; unfold zlen; lia).
  destruct (pton6_groups ts gs "" (joined ":" ts ++ "") [] None H Hne) as [nd [tok' [init [g [E1 [E2 [E3 E4]]]]]]]; [rewrite zlen_nil; unfold zlen; lia|].
  rewrite E4. cbn [inet_pton6_loop app]. subst gs. rewrite app_length in Hl. cbn in Hl.
  rewrite finish_group by (auto; try lia; rewrite groups_bytes_zlen; unfold zlen; lia).
  rewrite groups_bytes_app. replace (groups_bytes [g]) with (group_bytes g) by (cbn; rewrite ?app_nil_r; auto).
  unfold pton6_finish. cbn [Z.ltb Z.compare]. rewrite zlen_app, groups_bytes_zlen.
  change (zlen (group_bytes g)) with 2. replace (2 * zlen init + 2 =? 16) with true; auto. unfold zlen. lia.
Qed.

Lemma finish_colon : forall o k, (k <= length o)%nat -> zlen o < 16 ->
  pton6_finish o (Some k) 0 0 = Some (firstn k o ++ repeat 0 (16 - length o) ++ skipn k o).
Proof.
  intros o k Hk Ho. unfold pton6_finish. cbn [Z.ltb Z.compare]. replace (zlen o =? 16) with false by lia. auto.
Qed.

Lemma ipv6_split_text : forall tp tq p q,
  Forall2 (hex_group 4) tp p -> Forall2 (hex_group 4) tq q -> (length p + length q <= 7)%nat ->
  ~ starts_0b (joined ":" tp) ->
  parse_bytes (joined ":" tp ++ "::" ++ joined ":" tq) 16 =
  Ret (Some (groups_bytes p ++ zeros (16 - 2 * length p - 2 * length q) ++ groups_bytes q)).
Proof.
  intros tp tq p q Hp Hq Hle Hb.
  assert (Hhc : Forall hexcolon (chars (joined ":" tp ++ "::" ++ joined ":" tq))).
  { rewrite !chars_app. apply Forall_app. split; [eapply joined_hexcolon; eauto|].
    cbn [chars app]. repeat (constructor; [right; auto|]). eapply joined_hexcolon; eauto. }
  assert (Hcol : contains ":" (joined ":" tp ++ "::" ++ joined ":" tq)).
  { unfold contains. rewrite chars_app. apply in_or_app. right. left. auto. }
  assert (Hb' : ~ starts_0b (joined ":" tp ++ "::" ++ joined ":" tq)).
  { intros [r Hr]. destruct (joined ":" tp) as [|c1 [|c2 u]].
    - discriminate.
    - cbn [append] in Hr. inversion Hr.
    - cbn [append] in Hr. inversion Hr; subst. apply Hb. exists u. reflexivity. }
  destruct (parse_bytes_colon _ Hhc Hcol Hb') as [_ ->]. f_equal.
  assert (Hpq : zlen p + zlen q <= 7) by (unfold zlen; lia).
  pose proof (zlen_nonneg _ p). pose proof (zlen_nonneg _ q).
  assert (Hmid : exists tok, inet_pton6 (joined ":" tp ++ "::" ++ joined ":" tq) =
                 inet_pton6_loop (joined ":" tq) tok (groups_bytes p) (Some (length (groups_bytes p))) 0 0).
  { destruct tp as [|t tp].
    - inversion Hp; subst. eexists. cbn [joined append inet_pton6]. change (code ":" =? 58) with true. cbn iota.
      rewrite pton6_double. reflexivity.
    - assert (Hne : (t :: tp) <> []) by discriminate. set (ts := t :: tp) in *. clearbody ts.
      rewrite (pton6_groups0 ts p) by (auto; lia).
      destruct (pton6_groups ts p ("::" ++ joined ":" tq) (joined ":" ts ++ "::" ++ joined ":" tq) [] None Hp Hne) as [nd [tok' [init [g [E1 [E2 [E3 E4]]]]]]]; [rewrite zlen_nil; lia|].
      rewrite E4. cbn [append app]. subst p. rewrite zlen_app, zlen_cons, zlen_nil in *.
      rewrite pton6_sep by (auto; try lia; try discriminate; rewrite groups_bytes_zlen; lia).
      rewrite pton6_double. eexists. rewrite groups_bytes_app. cbn [groups_bytes flat_map]. rewrite app_nil_r. reflexivity. }
  destruct Hmid as [tok ->].
  assert (Hbp : zlen (groups_bytes p) = 2 * zlen p) by apply groups_bytes_zlen.
  assert (Hbq : zlen (groups_bytes q) = 2 * zlen q) by apply groups_bytes_zlen.
  assert (Hfin : pton6_finish (groups_bytes p ++ groups_bytes q) (Some (length (groups_bytes p))) 0 0 =
    Some (groups_bytes p ++ zeros (16 - 2 * length p - 2 * length q) ++ groups_bytes q)).
  { rewrite finish_colon by (try (rewrite zlen_app; lia); rewrite app_length; lia).
    rewrite firstn_app, firstn_all, Nat.sub_diag. cbn [firstn]. rewrite app_nil_r.
    rewrite skipn_app, skipn_all, Nat.sub_diag. cbn [skipn app]. unfold zeros. do 4 f_equal.
    rewrite app_length, !groups_bytes_len. lia. }
  destruct tq as [|t tq].
  - inversion Hq; subst. cbn [joined inet_pton6_loop]. cbn [groups_bytes flat_map] in Hfin. rewrite app_nil_r in Hfin. exact Hfin.
  - assert (Hne : (t :: tq) <> []) by discriminate. set (ts := t :: tq) in *. clearbody ts.
    rewrite <- (str_app_nil (joined ":" ts)).
    destruct (pton6_groups ts q "" tok (groups_bytes p) (Some (length (groups_bytes p))) Hq Hne) as [nd [tok' [init [g [E1 [E2 [E3 E4]]]]]]]; [lia|].
    rewrite E4. cbn [inet_pton6_loop]. rewrite <- Hfin. subst q. rewrite zlen_app, zlen_cons, zlen_nil in *.
    rewrite finish_group by (auto; try lia; rewrite zlen_app, !groups_bytes_zlen; lia).
    rewrite groups_bytes_app, <- app_assoc. cbn [groups_bytes flat_map]. rewrite app_nil_r. auto.
Qed.

(** *** C03: size of a parsed value *)

Lemma pton4_loop_len : forall s oct done cur l, inet_pton4_loop s oct done cur = Some l ->
  zlen done + (match cur with Some _ => 1 | None => 0 end) = oct -> oct <= 4 -> bytes_ok done ->
  (forall v, cur = Some v -> 0 <= v < 256) -> (cur = None -> oct < 4) -> zlen l = 4 /\ bytes_ok l.
Proof.
  induction s as [|c s IH]; intros oct done cur l H Ho H4 Hb Hc Hn; cbn [inet_pton4_loop] in H.
  - destruct (oct <? 4) eqn:E; [discriminate|]. destruct cur as [v|]; inversion H; subst.
    + split; [rewrite zlen_app; change (zlen [v]) with 1; lia|]. apply bytes_ok_app. split; auto. constructor; [apply Hc; auto|constructor].
    + specialize (Hn eq_refl). lia.
  - destruct (in_range 48 57 c) eqn:Er.
    + unfold in_range in Er. destruct cur as [v|]; cbn iota in Ho.
      * destruct (v =? 0); [discriminate|]. destruct (255 <? v * 10 + (code c - 48)) eqn:E; [discriminate|].
        specialize (Hc v eq_refl). eapply IH; [exact H|auto|auto|auto| |discriminate].
        intros w Ew. injection Ew as <-. lia.
      * destruct (4 <? oct + 1) eqn:E; [discriminate|]. eapply IH; [exact H|cbn iota; lia|lia|auto| |discriminate].
        intros w Ew. injection Ew as <-. lia.
    + destruct (code c =? 46); [|discriminate]. destruct cur as [v|]; [|discriminate]. cbn iota in Ho.
      destruct (oct =? 4) eqn:E; [discriminate|]. eapply IH; [exact H| |lia| |discriminate|lia].
      * cbn iota. rewrite zlen_app. change (zlen [v]) with 1. lia.
      * apply bytes_ok_app. split; auto. constructor; [apply Hc; auto|constructor].
Qed.

Lemma pton4_len : forall s l, inet_pton4 s = Some l -> zlen l = 4 /\ bytes_ok l.
Proof.
  intros s l H. eapply pton4_loop_len; eauto; try reflexivity; try lia; try discriminate. constructor.
Qed.

Lemma pton6_finish_len : forall o colon nd val l, pton6_finish o colon nd val = Some l -> bytes_ok o ->
  zlen o <= 16 -> (forall k, colon = Some k -> (k <= length o)%nat) -> zlen l = 16 /\ bytes_ok l.
Proof.
  intros o colon nd val l H Hb Ho Hk. unfold pton6_finish in H.
  set (fin := if 0 <? nd then if 16 <? zlen o + 2 then None else Some (o ++ [u8 (Z.shiftr val 8); u8 val]) else Some o) in H.
  assert (Hfin : forall o', fin = Some o' -> bytes_ok o' /\ zlen o' <= 16 /\ (length o <= length o')%nat).
  { unfold fin. intros o' E. destruct (0 <? nd).
    - destruct (16 <? zlen o + 2) eqn:E16; [discriminate|]. inversion E; subst. repeat split.
      + apply bytes_ok_app. split; auto. repeat constructor; apply u8_byte.
      + rewrite zlen_app. change (zlen [u8 (Z.shiftr val 8); u8 val]) with 2. lia.
      + rewrite app_length. lia.
    - inversion E; subst. auto. }
  destruct fin as [o'|]; [|discriminate]. destruct (Hfin o' eq_refl) as [Hb' [Ho' Hlen']].
  destruct colon as [k|].
  - specialize (Hk k eq_refl). destruct (zlen o' =? 16) eqn:E; [discriminate|]. apply some_inj in H. subst l. split.
    + unfold zlen. rewrite !app_length, repeat_length, firstn_length, skipn_length. unfold zlen in *. lia.
    + rewrite <- (firstn_skipn k o') in Hb'. apply bytes_ok_app in Hb'. apply bytes_ok_app. split; [tauto|].
      apply bytes_ok_app. split; [apply bytes_ok_repeat; unfold byte_ok; lia|tauto].
  - destruct (zlen o' =? 16) eqn:E; [|discriminate]. inversion H; subst. split; [lia|auto].
Qed.

Lemma pton6_loop_len : forall s tok o colon nd val l, inet_pton6_loop s tok o colon nd val = Some l ->
  bytes_ok o -> zlen o <= 16 -> (forall k, colon = Some k -> (k <= length o)%nat) -> zlen l = 16 /\ bytes_ok l.
Proof.
  induction s as [|c s IH]; intros tok o colon nd val l H Hb Ho Hk; cbn [inet_pton6_loop] in H.
  - eapply pton6_finish_len; eauto.
  - destruct (hexval c) as [d|].
    + destruct (nd =? 4); [discriminate|]. eauto.
    + destruct (code c =? 58).
      * destruct (nd =? 0).
        -- destruct colon; [discriminate|]. eapply IH; eauto. intros k E. inversion E; subst. lia.
        -- destruct s as [|c2 s2]; [discriminate|]. destruct (16 <? zlen o + 2) eqn:E16; [discriminate|].
           eapply IH; eauto.
           ++ apply bytes_ok_app. split; auto. repeat constructor; apply u8_byte.
           ++ rewrite zlen_app. change (zlen [u8 (Z.shiftr val 8); u8 val]) with 2. lia.
           ++ intros k E. rewrite app_length. specialize (Hk k E). lia.
      * destruct ((code c =? 46) && (zlen o + 4 <=? 16)) eqn:E4; [|discriminate].
        destruct (inet_pton4 tok) as [q|] eqn:Eq; [|discriminate]. apply pton4_len in Eq. destruct Eq as [Eq Eb].
        eapply pton6_finish_len; eauto.
        -- apply bytes_ok_app; auto.
        -- rewrite zlen_app. lia.
        -- intros k E. rewrite app_length. specialize (Hk k E). lia.
Qed.

Lemma pton6_len : forall s l, inet_pton6 s = Some l -> zlen l = 16 /\ bytes_ok l.
Proof.
  intros s l H. unfold inet_pton6 in H. destruct s as [|c r]; [discriminate|].
  assert (N : bytes_ok []) by constructor.
  destruct (code c =? 58).
  - destruct r as [|c2 r]; [discriminate|]. destruct (code c2 =? 58); [|discriminate].
    eapply pton6_loop_len; [exact H|auto|cbn; lia|discriminate].
  - eapply pton6_loop_len; [exact H|auto|cbn; lia|discriminate].
Qed.

Lemma parse_bytes_len : forall s k l, 0 <= k -> parse_bytes s k = Ret (Some l) -> zlen l = k /\ bytes_ok l.
Proof.
  intros s k l Hk H. unfold parse_bytes in H. destruct (split_prefix s) as [p d].
  set (f := flags_of d) in *. set (base := base_of p f) in *.
  destruct (negb (base =? 0) && (k <=? 8)) eqn:E1.
  - destruct (strtoull d base) as [[v|] rest]; [|discriminate]. destruct rest; [|discriminate].
    replace (k <? 0) with false in H by lia. apply ret_inj, some_inj in H. subst l. rewrite skipn_be_bytes8 by lia. split.
    + unfold zlen. rewrite be_bytes_length. lia.
    + apply be_bytes_ok.
  - destruct (base =? 16); [apply parse_bytes_hex_inv in H; auto|].
    destruct (base =? 2); [apply parse_bytes_binary_inv in H; auto|].
    destruct p; [discriminate|].
    destruct ((k =? 4) && negb (has_other f) && negb (has_colon f) && has_dot f) eqn:E4.
    { inversion H. destruct (pton4_len _ _ H1). split; auto. lia. }
    destruct ((k =? 6) && negb (has_other f) && negb (has_dot f) && has_colon f) eqn:E6.
    { destruct (parse_mac_len _ _ H). split; auto. lia. }
    destruct ((k =? 16) && negb (has_other f) && has_colon f) eqn:E16; [|discriminate].
    inversion H. destruct (pton6_len _ _ H1). split; auto. lia.
Qed.

(** No crash for at most 8 bytes, whatever the text. *)
Lemma parse_bytes_safe8 : forall s k, 0 <= k <= 8 -> exists o, parse_bytes s k = Ret o.
Proof.
  intros s k Hk. unfold parse_bytes. destruct (split_prefix s) as [p d].
  set (f := flags_of d). set (base := base_of p f).
  destruct (base =? 0) eqn:E0.
  - assert (base = 0) by lia. replace (base =? 16) with false by lia. replace (base =? 2) with false by lia.
    cbn [negb andb]. destruct p; [eauto|].
    destruct ((k =? 4) && negb (has_other f) && negb (has_colon f) && has_dot f); [eauto|].
    destruct ((k =? 6) && negb (has_other f) && negb (has_dot f) && has_colon f).
    + destruct (parse_mac_spec d) as [o [Ho _]]. eauto.
    + destruct ((k =? 16) && negb (has_other f) && has_colon f); eauto.
  - replace (k <=? 8) with true by lia. cbn [negb andb]. replace (k <? 0) with false by lia.
    destruct (strtoull d base) as [[v|] rest]; [|eauto]. destruct rest; eauto.
Qed.

(** A literal longer than the field: the first access is in front of the
    buffer. *)
Lemma wide_hex_overflow : forall body ds k, 8 < k -> digits_of 16 body ds ->
  Nat.Even (length ds) -> 2 * k < Z.of_nat (length ds) ->
  parse_bytes ("0x" ++ body) k = Crash OOB_read.
Proof.
  intros body ds k Hk Hds [n Hn] Hlt. destruct (digits_pairs n body ds Hn Hds) as [d [Hd [Hl Hv]]].
  unfold parse_bytes. pose proof (split_prefix_num (Some P0x) body ds Hds) as Hsp. cbn [radix_of radix_prefix Z.eqb Pos.eqb] in Hsp.
  rewrite Hsp. pose proof (base_of_num (Some P0x) body ds Hds) as Hbo. cbn [radix_of] in Hbo. rewrite Hbo.
  replace (k <=? 8) with false by lia. cbn [Z.eqb Pos.eqb negb andb].
  unfold parse_bytes_hex. rewrite (nib_scan_dump _ _ Hd) by reflexivity.
  assert (Hzd : zlen d = Z.of_nat n) by (unfold zlen; lia).
  replace (0 + 2 * zlen d =? 0) with false by lia. cbn [orb].
  replace ((0 + 2 * zlen d) / 2) with (zlen d) by lia.
  destruct body as [|c body]; [inversion Hds; subst; unfold zlen in *; cbn [length] in *; lia|].
  inversion Hds as [|? y ? ? [Hc _] _]; subst. rewrite digit_hexval in Hc.
  cbn [nib_fill]. rewrite Hc. unfold bget. replace (0 <=? k - zlen d) with false by lia. reflexivity.
Qed.

Lemma wide_bin_overflow : forall body ds k, 8 < k -> digits_of 2 body ds ->
  Z.of_nat (length ds) mod 8 = 0 -> 8 * k < Z.of_nat (length ds) ->
  parse_bytes ("0b" ++ body) k = Crash OOB_read.
Proof.
  intros body ds k Hk Hds Hmod Hlt.
  unfold parse_bytes. pose proof (split_prefix_num (Some P0b) body ds Hds) as Hsp. cbn [radix_of radix_prefix Z.eqb Pos.eqb] in Hsp.
  rewrite Hsp. pose proof (base_of_num (Some P0b) body ds Hds) as Hbo. cbn [radix_of] in Hbo. rewrite Hbo.
  replace (k <=? 8) with false by lia. cbn [Z.eqb Pos.eqb negb andb].
  unfold parse_bytes_binary. rewrite (bin_scan_digits _ ds) by auto. rewrite Z.add_0_l.
  fold (zlen ds) in Hmod, Hlt.
  replace (zlen ds =? 0) with false by lia. cbn [orb]. replace (zlen ds mod 8 =? 0) with true by lia. cbn [negb].
  destruct body as [|c body]; [inversion Hds; subst; unfold zlen in *; cbn [length] in *; lia|].
  inversion Hds as [|? y ? ? [Hc Hy] _]; subst. destruct (bit_digit _ _ Hc Hy) as [Hb _].
  cbn [bin_fill]. rewrite Hb. unfold bget. replace (0 <=? k - zlen (y :: l') / 8) with false; [reflexivity|].
  symmetry. apply Z.leb_gt. lia.
Qed.

(** Odd digit counts and other bases are not accepted for wide fields. *)
Lemma wide_hex_odd : forall body ds k, 8 < k -> digits_of 16 body ds -> Nat.Odd (length ds) ->
  parse_bytes ("0x" ++ body) k = Ret None.
Proof.
  intros body ds k Hk Hds Hodd.
  unfold parse_bytes. pose proof (split_prefix_num (Some P0x) body ds Hds) as Hsp. cbn [radix_of radix_prefix Z.eqb Pos.eqb] in Hsp.
  rewrite Hsp. pose proof (base_of_num (Some P0x) body ds Hds) as Hbo. cbn [radix_of] in Hbo. rewrite Hbo.
  replace (k <=? 8) with false by lia. cbn [Z.eqb Pos.eqb negb andb].
  unfold parse_bytes_hex.
  assert (G : forall s ds0 cnt a, digits_of 16 s ds0 ->
     nib_scan s cnt false a = (cnt + zlen ds0, false, a || negb ((cnt + zlen ds0) mod 2 =? 0))).
  { induction s as [|c s IH]; intros ds0 cnt a H; inversion H as [|? y ? l' [Hc Hy] Hr]; subst; cbn [nib_scan].
    - rewrite zlen_nil, Z.add_0_r. auto.
    - rewrite digit_hexval in Hc. rewrite Hc, (IH l') by auto. rewrite zlen_cons.
      replace (cnt + 1 + zlen l') with (cnt + (1 + zlen l')) by lia. auto. }
  rewrite (G body ds) by auto. destruct Hodd as [m Hm].
  replace (0 + zlen ds =? 0) with false by (unfold zlen; lia). cbn [orb].
  replace ((0 + zlen ds) mod 2 =? 0) with false by (unfold zlen; lia). reflexivity.
Qed.

Lemma numeral_exists : forall base n, is_radix base -> 0 <= n -> exists s, denotes base s n.
Proof.
  intros base n Hr Hn. exists (print_base base n). apply print_base_denotes; auto.
  destruct Hr as [<-|[<-|[<-|[<-|[]]]]]; lia.
Qed.

Lemma mac_every_string : forall s, contains ":" s ->
  exists o, parse_bytes s 6 = Ret o /\
  forall r, o = Some r ->
    Z.of_nat (length r) = 6 /\
    exists os, octets s = Some os /\ (length os <= 6)%nat /\
      ((forall A B, s <> (A ++ "::" ++ B)%string) -> r = zeros (6 - length os) ++ os) /\
      (forall A B, s = (A ++ "::" ++ B)%string ->
         (length os <= 5)%nat /\
         exists p q, octets A = Some p /\ octets B = Some q /\ os = p ++ q /\
                     r = p ++ zeros (6 - length p - length q) ++ q).
Proof.
  intros s Hc. destruct (parse_bytes_safe8 s 6 ltac:(lia)) as [o Ho]. exists o. split; auto.
  intros r ->. split; [apply (parse_bytes_len s 6 r); auto; lia|].
  unfold parse_bytes in Ho. destruct (split_prefix s) as [p d] eqn:Esp.
  pose proof (split_prefix_radix _ _ _ Esp) as Hs.
  assert (Hd : has_colon (flags_of d) = true).
  { unfold flags_of; cbn [has_colon]. rewrite str_existsb_chars. apply existsb_exists. exists ":"%char. split; auto.
    rewrite Hs in Hc. unfold contains in *. rewrite chars_app in Hc.
    apply in_app_or in Hc. destruct Hc as [Hc|Hc]; auto.
    exfalso. destruct p as [[]|]; cbn in Hc; intuition discriminate. }
  rewrite base_of_colon in Ho by auto. cbn [Z.eqb Pos.eqb negb andb] in Ho.
  destruct p; [discriminate|]. cbn in Hs. subst d.
  destruct (negb (has_other (flags_of s)) && negb (has_dot (flags_of s)) && has_colon (flags_of s)); [|discriminate].
  destruct (parse_mac_spec s) as [o [Hm Hspec]]. rewrite Hm in Ho. inversion Ho; subst. apply Hspec; auto.
Qed.

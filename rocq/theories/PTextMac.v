(** MAC address texts in full generality: C05. *)

From Verif Require Export PTextAddr.

Lemma app_eq_len : forall A (a b c d : list A), length a = length b -> a ++ c = b ++ d -> a = b.
Proof.
  induction a as [|x a IH]; intros [|y b] c d Hl H; cbn in *; try lia; auto.
  inversion H; subst. f_equal. eapply IH; eauto.
Qed.

Definition curl (cur : option (nat * Z)) : list Z :=
  match cur with Some (_, v) => [v] | None => [] end.

Definition curn (cur : option (nat * Z)) : Z :=
  match cur with Some (n, _) => Z.of_nat n | None => 0 end.

Record minv (st : mac_st) (p : list Z) (cur : option (nat * Z)) : Prop := MkMinv {
  mi_idx : mc_idx st = zlen p;
  mi_m : mc_m st = p ++ curl cur ++ repeat 0 (6 - length p - length (curl cur));
  mi_val : mc_val_cnt st = curn cur;
  mi_cur : forall n v, cur = Some (n, v) -> (1 <= n <= 2)%nat /\ 0 <= v < 16 ^ Z.of_nat n /\
             mc_col_cnt st = 0 /\ zlen p <= 5;
  mi_elem : mc_elem st = zlen p + zlen (curl cur);
  mi_len : zlen p <= 6;
  mi_bytes : bytes_ok p;
  mi_split : 0 <= mc_split st <= zlen p;
  mi_sc : 0 <= mc_split_cnt st <= 1;
  mi_sc0 : mc_split_cnt st = 0 -> mc_split st = 0;
  mi_col : 0 <= mc_col_cnt st }.

Lemma minv_init : minv mac_init [] None.
Proof. constructor; cbn; auto; try lia; try discriminate. constructor. Qed.

Definition next_cur (cur : option (nat * Z)) (d : Z) : option (nat * Z) :=
  match cur with None => Some (1%nat, d) | Some (_, v) => Some (2%nat, 16 * v + d) end.

Lemma colon_not_digit : digit ":" = None.
Proof. reflexivity. Qed.

Lemma code_colon : forall c, (code c =? 58) = Ascii.eqb c ":".
Proof.
  intros c. destruct (Ascii.eqb c ":") eqn:E.
  - apply Ascii.eqb_eq in E. subst. reflexivity.
  - apply Ascii.eqb_neq in E. destruct (code c =? 58) eqn:E2; auto. exfalso. apply E. apply code_inj. cbn. lia.
Qed.

Lemma mac_step_inv : forall c st p cur, minv st p cur ->
  exists o, mac_step c st = Ret o /\
  forall st', o = Some st' ->
   (c = ":"%char /\ minv st' (p ++ curl cur) None /\
      ((mc_col_cnt st = 0 /\ mc_col_cnt st' = 1 /\ mc_split st' = mc_split st /\ mc_split_cnt st' = mc_split_cnt st)
       \/ (mc_col_cnt st = 1 /\ mc_col_cnt st' = 2 /\ mc_split_cnt st = 0 /\
           mc_split st' = zlen (p ++ curl cur) /\ mc_split_cnt st' = 1)))
   \/ (exists d, c <> ":"%char /\ digit c = Some d /\ (forall v, cur <> Some (2%nat, v)) /\
        minv st' p (next_cur cur d) /\ mc_col_cnt st' = 0 /\
        mc_split st' = mc_split st /\ mc_split_cnt st' = mc_split_cnt st).
Proof.
  intros c st p cur I. destruct st as [m idx sp sc vc col el]. destruct I as [Hidx Hm Hval Hcur Hel Hlen Hby Hsp Hsc Hsc0 Hcol].
  cbn [mc_m mc_idx mc_split mc_split_cnt mc_val_cnt mc_col_cnt mc_elem] in *.
  destruct (digit c) as [d|] eqn:Ed.
  - assert (Hnc : c <> ":"%char) by (intros ->; discriminate).
    destruct (Z_le_dec idx 5) as [H5|H5].
    2: { exists None. split; [|discriminate]. unfold mac_step. rewrite digit_hexval in Ed. rewrite Ed.
         cbn [mc_idx]. replace (5 <? idx) with true by lia. reflexivity. }
    pose proof (digit_range _ _ Ed) as Hd.
    pose proof (zlen_nonneg _ p).
    destruct cur as [[n v]|].
    + destruct (Hcur n v eq_refl) as [Hn [Hv [Hc0 Hp5]]]. cbn [curl curn length] in *.
      destruct (Nat.eq_dec n 1) as [->|Hn1].
      * cbn in Hv. subst m vc. cbn [app]. subst idx.
        rewrite (mac_step_digit c d p _ v) by (auto; lia).
        eexists. split; [reflexivity|]. intros st' E. injection E as <-. right. exists d.
        change (Z.of_nat 1 + 1 =? 1) with false. cbn [mc_col_cnt mc_split mc_split_cnt].
        split; [auto|]. split; [auto|]. split; [discriminate|]. split; [|auto].
        constructor; cbn [mc_m mc_idx mc_split mc_split_cnt mc_val_cnt mc_col_cnt mc_elem next_cur curl curn length app]; auto; try lia.
        intros n v0 E0. assert (n = 2%nat) by congruence. assert (v0 = 16 * v + d) by congruence. subst n v0. change (16 ^ Z.of_nat 2) with 256. repeat split; lia.
      * assert (n = 2)%nat by lia. subst n.
        exists None. split; [|discriminate]. unfold mac_step. rewrite digit_hexval in Ed. rewrite Ed.
        cbn [mc_m mc_idx mc_split mc_split_cnt mc_val_cnt mc_col_cnt mc_elem].
        replace (5 <? idx) with false by lia. replace (2 <? vc + 1) with true by lia. reflexivity.
    + cbn [curl curn length app] in *. subst vc idx.
      assert (Hrep : repeat 0 (6 - length p - 0) = 0 :: repeat 0 (6 - length p - 1)).
      { replace (6 - length p - 0)%nat with (S (6 - length p - 1)) by (unfold zlen in *; lia). reflexivity. }
      rewrite Hrep in Hm. subst m.
      rewrite (mac_step_digit c d p _ 0) by (auto; lia).
      eexists. split; [reflexivity|]. intros st' E. injection E as <-. right. exists d.
      cbn [mc_col_cnt mc_split mc_split_cnt].
      split; [auto|]. split; [auto|]. split; [discriminate|]. split; [|auto].
      constructor; cbn [mc_m mc_idx mc_split mc_split_cnt mc_val_cnt mc_col_cnt mc_elem next_cur curl curn length app]; auto; try lia.
      * intros n v0 E0. injection E0 as <- <-. change (16 ^ Z.of_nat 1) with 16. repeat split; lia.
      * change (0 + 1 =? 1) with true. cbn iota. rewrite Hel, zlen_cons, zlen_nil. lia.
  - unfold mac_step. rewrite digit_hexval in Ed. rewrite Ed. rewrite code_colon.
    destruct (Ascii.eqb c ":") eqn:Ec; [|exists None; split; auto; discriminate].
    apply Ascii.eqb_eq in Ec. subst c.
    cbn [mc_m mc_idx mc_split mc_split_cnt mc_val_cnt mc_col_cnt mc_elem].
    destruct (5 <? idx) eqn:E5; [exists None; split; auto; discriminate|].
    set (idx' := if negb (vc =? 0) && (col =? 0) then idx + 1 else idx).
    assert (Hidx' : idx' = zlen (p ++ curl cur)).
    { unfold idx'. rewrite zlen_app. destruct cur as [[n v]|]; cbn [curl curn] in *.
      - destruct (Hcur n v eq_refl) as [Hn [Hv [Hc0 Hp5]]]. replace (vc =? 0) with false by lia.
        replace (col =? 0) with true by lia. cbn [negb andb]. rewrite zlen_cons, zlen_nil. lia.
      - replace (vc =? 0) with true by lia. cbn [negb andb]. rewrite zlen_nil. lia. }
    assert (Hm' : m = (p ++ curl cur) ++ [] ++ repeat 0 (6 - length (p ++ curl cur) - 0)).
    { rewrite Hm, <- app_assoc. cbn [app]. rewrite app_length. do 3 f_equal. lia. }
    assert (Hlen' : zlen (p ++ curl cur) <= 6).
    { rewrite zlen_app. destruct cur as [[n v]|]; cbn [curl].
      - destruct (Hcur n v eq_refl) as [Hn [Hv [Hc0 Hp5]]]. rewrite zlen_cons, zlen_nil. lia.
      - rewrite zlen_nil. lia. }
    assert (Hby' : bytes_ok (p ++ curl cur)).
    { apply bytes_ok_app. split; auto. destruct cur as [[n v]|]; cbn [curl]; constructor; [|constructor].
      destruct (Hcur n v eq_refl) as [Hn [Hv [Hc0 Hp5]]]. unfold byte_ok.
      assert (16 ^ Z.of_nat n <= 16 ^ 2) by (apply Z.pow_le_mono_r; lia). lia. }
    assert (Hzc : zlen (p ++ curl cur) = zlen p + zlen (curl cur)) by apply zlen_app.
    pose proof (zlen_nonneg _ (curl cur)).
    destruct (col + 1 =? 2) eqn:E2.
    + destruct (1 <? sc + 1) eqn:E3; [exists None; split; auto; discriminate|].
      destruct (negb (sp =? 0)) eqn:E4; [exists None; split; auto; discriminate|].
      eexists. split; [reflexivity|]. intros st' E. inversion E; subst st'. left.
      split; auto. cbn [mc_m mc_idx mc_split mc_split_cnt mc_val_cnt mc_col_cnt mc_elem].
      split; [|right; repeat split; lia].
      constructor; cbn [mc_m mc_idx mc_split mc_split_cnt mc_val_cnt mc_col_cnt mc_elem curl curn length]; auto; try lia; try discriminate.
      rewrite zlen_nil; lia.
    + destruct (2 <? col + 1) eqn:E3; [exists None; split; auto; discriminate|].
      eexists. split; [reflexivity|]. intros st' E. inversion E; subst st'. left.
      split; auto. cbn [mc_m mc_idx mc_split mc_split_cnt mc_val_cnt mc_col_cnt mc_elem].
      split; [|left; repeat split; lia].
      constructor; cbn [mc_m mc_idx mc_split mc_split_cnt mc_val_cnt mc_col_cnt mc_elem curl curn length]; auto; try lia; try discriminate.
      rewrite zlen_nil; lia.
Qed.

Lemma mac_loop_inv : forall s st p cur, minv st p cur ->
  exists o, mac_loop s st = Ret o /\
  forall st', o = Some st' -> exists l p' cur', octets_from s cur = Some l /\ minv st' p' cur' /\
     p' ++ curl cur' = p ++ l.
Proof.
  induction s as [|c s IH]; intros st p cur I; cbn [mac_loop].
  - exists (Some st). split; auto. intros st' E. inversion E; subst.
    exists (curl cur), p, cur. split; [reflexivity|auto].
  - destruct (mac_step_inv c st p cur I) as [o [Hs Ho]]. rewrite Hs. cbn [bind].
    destruct o as [st1|]; [|exists None; split; auto; discriminate].
    destruct (Ho st1 eq_refl) as [[Hc [I1 _]]|[d [Hc [Hd [Hn2 [I1 _]]]]]].
    + destruct (IH st1 _ _ I1) as [o [Hl Hfin]]. exists o. split; auto.
      intros st' E. destruct (Hfin st' E) as [l [p' [cur' [H1 [H2 H3]]]]].
      subst c. exists (curl cur ++ l), p', cur'. split; [|split; auto].
      * cbn [octets_from]. rewrite Ascii.eqb_refl, H1. destruct cur as [[n v]|]; reflexivity.
      * rewrite H3, app_assoc. auto.
    + destruct (IH st1 _ _ I1) as [o [Hl Hfin]]. exists o. split; auto.
      intros st' E. destruct (Hfin st' E) as [l [p' [cur' [H1 [H2 H3]]]]].
      exists l, p', cur'. split; [|split; auto].
      cbn [octets_from]. apply Ascii.eqb_neq in Hc. rewrite Hc, Hd.
      destruct cur as [[n v]|]; cbn [next_cur] in H1; auto.
      destruct (mi_cur _ _ _ I n v eq_refl) as [Hn _].
      assert (n = 1 \/ n = 2)%nat as [->| ->] by lia; auto. exfalso. eapply Hn2; eauto.
Qed.

Lemma mac_loop_ret : forall s st p cur, minv st p cur -> exists o, mac_loop s st = Ret o.
Proof. intros s st p cur I. destruct (mac_loop_inv s st p cur I) as [o [H _]]. eauto. Qed.

(** Without a double colon the split point does not move. *)
Lemma mac_no_split : forall s st p cur st', minv st p cur -> mac_loop s st = Ret (Some st') ->
  (forall A B, s <> (A ++ "::" ++ B)%string) ->
  (mc_col_cnt st = 0 \/ forall r, s <> String ":" r) ->
  mc_split st' = mc_split st /\ mc_split_cnt st' = mc_split_cnt st.
Proof.
  induction s as [|c s IH]; intros st p cur st' I H Hno Hst; cbn [mac_loop] in H.
  - inversion H; subst. auto.
  - destruct (mac_step_inv c st p cur I) as [o [Hs Ho]]. rewrite Hs in H. cbn [bind] in H.
    destruct o as [st1|]; [|discriminate].
    assert (Hno' : forall A B, s <> (A ++ "::" ++ B)%string).
    { intros A B E. apply (Hno (String c A) B). rewrite E. reflexivity. }
    destruct (Ho st1 eq_refl) as [[Hc [I1 Hcase]]|[d [Hc [Hd [Hn2 [I1 [Hcol [Hsp Hsc]]]]]]]].
    + subst c. destruct Hst as [Hst|Hst]; [|exfalso; eapply Hst; eauto].
      destruct Hcase as [[_ [Hc1 [Hsp Hsc]]]|[Hc1 _]]; [|lia].
      destruct (IH st1 _ _ st' I1 H Hno') as [E1 E2].
      * right. intros r E. apply (Hno "" r). rewrite E. reflexivity.
      * split; congruence.
    + destruct (IH st1 _ _ st' I1 H Hno') as [E1 E2]; auto. split; congruence.
Qed.

(** After a double colon the split point stays. *)
Lemma mac_split_stays : forall s st p cur st', minv st p cur -> mac_loop s st = Ret (Some st') ->
  mc_split_cnt st = 1 -> mc_split st' = mc_split st /\ mc_split_cnt st' = 1.
Proof.
  induction s as [|c s IH]; intros st p cur st' I H Hsc; cbn [mac_loop] in H.
  - inversion H; subst. auto.
  - destruct (mac_step_inv c st p cur I) as [o [Hs Ho]]. rewrite Hs in H. cbn [bind] in H.
    destruct o as [st1|]; [|discriminate].
    destruct (Ho st1 eq_refl) as [[Hc [I1 Hcase]]|[d [Hc [Hd [Hn2 [I1 [Hcol [Hsp Hsc1]]]]]]]].
    + destruct Hcase as [[_ [Hc1 [Hsp Hsc1]]]|[Hc1 [_ [Hsc1 _]]]]; [|lia].
      destruct (IH st1 _ _ st' I1 H) as [E1 E2]; [congruence|]. split; congruence.
    + destruct (IH st1 _ _ st' I1 H) as [E1 E2]; [congruence|]. split; congruence.
Qed.

Lemma mac_end_inv : forall st p cur, minv st p cur ->
  exists o, mac_end st = Ret o /\
  forall r, o = Some r ->
    let os := p ++ curl cur in
    let k := Z.to_nat (mc_split st) in
    (length os <= 6)%nat /\ (mc_split_cnt st = 1 -> (length os <= 5)%nat) /\
    r = firstn k os ++ repeat 0 (6 - length os) ++ skipn k os.
Proof.
  intros st p cur I. destruct st as [m idx sp sc vc col el].
  destruct I as [Hidx Hm Hval Hcur Hel Hlen Hby Hsp Hsc Hsc0 Hcol].
  cbn [mc_m mc_idx mc_split mc_split_cnt mc_val_cnt mc_col_cnt mc_elem] in *. cbv zeta.
  set (os := p ++ curl cur). set (k := Z.to_nat sp).
  assert (Hos : zlen os = el) by (unfold os; rewrite zlen_app; lia).
  assert (Hk : (k <= length p)%nat) by (unfold k, zlen in *; lia).
  assert (Hko : (k <= length os)%nat) by (unfold os; rewrite app_length; lia).
  destruct (1 <? sc) eqn:E1; [lia|].
  destruct (6 <? el) eqn:E2.
  { exists None. split; [|discriminate]. unfold mac_end. cbn [mc_split_cnt mc_elem]. rewrite E1, E2. auto. }
  destruct ((6 <=? el) && (0 <? sc)) eqn:E3.
  { exists None. split; [|discriminate]. unfold mac_end. cbn [mc_split_cnt mc_elem]. rewrite E1, E2, E3. auto. }
  pose proof (mac_end_spec (firstn k os) (skipn k os) idx sc vc col) as He.
  assert (Hz1 : zlen (firstn k os) = sp) by (unfold zlen; rewrite firstn_length; unfold k; lia).
  assert (Hz2 : zlen (firstn k os) + zlen (skipn k os) = el).
  { rewrite <- zlen_app, firstn_skipn. auto. }
  assert (Hlen2 : (6 - length (firstn k os) - length (skipn k os))%nat = (6 - length os)%nat).
  { unfold zlen in Hz2, Hos. lia. }
  rewrite Hz2, Hz1, Hlen2, app_assoc, firstn_skipn in He.
  assert (Hm' : m = os ++ repeat 0 (6 - length os)).
  { rewrite Hm. unfold os. rewrite <- app_assoc, app_length. do 3 f_equal. lia. }
  rewrite <- Hm' in He. eexists. split.
  - apply He; try lia. intros H0. unfold k. rewrite Hsc0 by auto. reflexivity.
  - intros r E. inversion E; subst r. repeat split; auto; unfold zlen in Hos; lia.
Qed.

(** Every string: no crash, and what an accepted string means. *)
Lemma parse_mac_spec : forall s,
  exists o, parse_mac s = Ret o /\
  forall r, o = Some r ->
    exists os, octets s = Some os /\ (length os <= 6)%nat /\
      ((forall A B, s <> (A ++ "::" ++ B)%string) -> r = zeros (6 - length os) ++ os) /\
      (forall A B, s = (A ++ "::" ++ B)%string ->
         (length os <= 5)%nat /\
         exists p q, octets A = Some p /\ octets B = Some q /\ os = p ++ q /\
                     r = p ++ zeros (6 - length p - length q) ++ q).
Proof.
  intros s. rewrite parse_mac_end. destruct (mac_loop_inv s _ _ _ minv_init) as [o [Hl Hfin]].
  rewrite Hl. cbn [bind]. destruct o as [st|]; [|exists None; split; auto; discriminate].
  destruct (Hfin st eq_refl) as [os [p' [cur' [Hoct [I Hp]]]]]. cbn [app] in Hp.
  destruct (mac_end_inv st p' cur' I) as [o [He Hr]]. exists o. split; auto.
  intros r Er. destruct (Hr r Er) as [H6 [H5 Hval]]. rewrite Hp in *.
  exists os. split; [exact Hoct|]. split; auto. split.
  - intros Hno. destruct (mac_no_split s _ _ _ st minv_init Hl Hno) as [E1 E2]; [left; reflexivity|].
    cbn in E1. rewrite Hval, E1. reflexivity.
  - intros A B Hs. subst s. rewrite mac_loop_app in Hl.
    destruct (mac_loop_inv A _ _ _ minv_init) as [oA [HA HfA]]. rewrite HA in Hl. cbn [bind] in Hl.
    destruct oA as [stA|]; [|discriminate].
    destruct (HfA stA eq_refl) as [lA [pA [curA [HoA [IA HpA]]]]]. cbn [app] in HpA.
    cbn [append mac_loop] in Hl.
    destruct (mac_step_inv ":" stA _ _ IA) as [o1 [Hs1 Ho1]]. rewrite Hs1 in Hl. cbn [bind] in Hl.
    destruct o1 as [st1|]; [|discriminate].
    destruct (Ho1 st1 eq_refl) as [[_ [I1 Hc1]]|[d [Hc _]]]; [|congruence].
    destruct (mac_step_inv ":" st1 _ _ I1) as [o2 [Hs2 Ho2]]. rewrite Hs2 in Hl. cbn [bind] in Hl.
    destruct o2 as [st2|]; [|discriminate].
    destruct (Ho2 st2 eq_refl) as [[_ [I2 Hc2]]|[d [Hc _]]]; [|congruence].
    cbn [curl] in *. rewrite app_nil_r in *.
    assert (Hsp2 : mc_split st2 = zlen lA /\ mc_split_cnt st2 = 1).
    { destruct Hc2 as [[C1 _]|[C1 [C2 [C3 [C4 C5]]]]].
      - destruct Hc1 as [[D1 [D2 _]]|[D1 [D2 _]]]; lia.
      - rewrite HpA in C4. auto. }
    destruct Hsp2 as [Hsp2 Hsc2].
    destruct (mac_split_stays B st2 _ _ st I2 Hl Hsc2) as [Hsp Hsc].
    destruct (mac_loop_inv B st2 _ _ I2) as [oB [HB HfB]]. rewrite Hl in HB. inversion HB; subst oB.
    destruct (HfB st eq_refl) as [lB [pB [curB [HoB [IB HpB]]]]].
    assert (Hos : os = lA ++ lB).
    { rewrite <- HpA. rewrite <- HpB. rewrite <- Hp.
      (* both invariants describe the same final state *)
      assert (Hsame : mc_m st = os ++ repeat 0 (6 - length os)).
      { rewrite (mi_m _ _ _ I), <- Hp, <- app_assoc, app_length. do 3 f_equal. lia. }
      assert (Hsame2 : mc_m st = (pB ++ curl curB) ++ repeat 0 (6 - length (pB ++ curl curB))).
      { rewrite (mi_m _ _ _ IB), <- app_assoc, app_length. do 3 f_equal. lia. }
      assert (Hel : zlen (p' ++ curl cur') = zlen (pB ++ curl curB)).
      { rewrite !zlen_app, <- (mi_elem _ _ _ I), <- (mi_elem _ _ _ IB). auto. }
      rewrite <- Hp in Hsame. rewrite Hsame in Hsame2. unfold zlen in Hel.
      eapply app_eq_len; [|exact Hsame2]. lia. }
    split; [apply H5; auto|].
    exists lA, lB. repeat split; auto. rewrite Hval, Hsp, Hsp2, zlen_Z, Hos.
    rewrite firstn_app, firstn_all, Nat.sub_diag. cbn [firstn]. rewrite app_nil_r.
    rewrite skipn_app, skipn_all, Nat.sub_diag. cbn [skipn app].
    unfold zeros. do 3 f_equal. rewrite app_length. lia.
Qed.

Lemma parse_mac_len : forall s r, parse_mac s = Ret (Some r) -> zlen r = 6 /\ bytes_ok r.
Proof.
  intros s r H. rewrite parse_mac_end in H. destruct (mac_loop_inv s _ _ _ minv_init) as [o [Hl Hfin]].
  rewrite Hl in H. cbn [bind] in H. destruct o as [st|]; [|discriminate].
  destruct (Hfin st eq_refl) as [os [p' [cur' [Hoct [I Hp]]]]]. cbn [app] in Hp.
  destruct (mac_end_inv st p' cur' I) as [o [He Hr]]. rewrite He in H. inversion H; subst o.
  destruct (Hr r eq_refl) as [H6 [H5 Hval]]. rewrite Hp in *.
  assert (Hb : bytes_ok os).
  { rewrite <- Hp. apply bytes_ok_app. split; [apply (mi_bytes _ _ _ I)|].
    destruct cur' as [[n v]|]; cbn [curl]; constructor; [|constructor].
    destruct (mi_cur _ _ _ I n v eq_refl) as [Hn [Hv _]]. unfold byte_ok.
    assert (16 ^ Z.of_nat n <= 16 ^ 2) by (apply Z.pow_le_mono_r; lia). lia. }
  set (k := Z.to_nat (mc_split st)) in *. split.
  - rewrite Hval. unfold zlen. rewrite !app_length, repeat_length, firstn_length, skipn_length.
    pose proof (mi_split _ _ _ I) as Hs. assert (k <= length os)%nat.
    { rewrite <- Hp, app_length. unfold k, zlen in *. lia. }
    lia.
  - rewrite Hval. apply bytes_ok_app. rewrite <- (firstn_skipn k os) in Hb. apply bytes_ok_app in Hb.
    split; [tauto|]. apply bytes_ok_app. split; [apply bytes_ok_repeat; unfold byte_ok; lia|tauto].
Qed.

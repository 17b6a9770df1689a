(** Frames of parts are emitted (C82): sizes and positions. *)

From Verif Require Import PTextIp PTextNum PTextHex PTextMac PTextAddr Frame PSer SpecParse PParse PMatch SpecFrame PFrame PInv PStep PArgs PSoft PFill PGroup PAll PSafe PAssign PField SpecOrigin POrigin PImage PSum PEmit SpecFill PCheck PCheck2 PLen PKeep PTwice PCoap PSegs PWords SpecLayout PLayout Cmd Exec SpecExec PCmd PPair PExec PReplay SpecWhole PWhole SpecExact PExact SpecForm PForm PForm2 PForm3.

(** *** Every part is regular and of the size of its form *)
Lemma plain_fill : forall r t n, row_of n r t -> ~ In n ["mld"; "sv"]%string -> h_fill t <> FL_sv /\ h_fill t <> FL_mld.
Proof.
  intros r t n HR Hn.
  assert (K : forallb (fun p => existsb (String.eqb (fst p)) ["mld"; "sv"]%string || match find_tmpl (fst p) with Some t => match h_fill t with FL_sv | FL_mld => false | _ => true end | None => false end) rows = true) by (vm_compute; reflexivity).
  rewrite forallb_forall in K. specialize (K _ (ro_in _ _ _ HR)). cbn [fst] in K. rewrite (ro_find _ _ _ HR) in K. apply orb_true_iff in K. destruct K as [K|K].
  - exfalso. apply Hn. apply existsb_exists in K. destruct K as [x [K1 K2]]. apply String.eqb_eq in K2. subst x. exact K1.
  - split; intros E; rewrite E in K; discriminate.
Qed.

Lemma part_regular : forall p m h, well_put (p, m) -> made (p, m) h -> regular h = true.
Proof.
  intros p m h [HF HA] HM. cbn [fst snd] in *. unfold made in HM. cbn [fst snd] in HM.
  assert (G : forall n asg, p = Header n asg -> ~ In n ["mld"; "sv"]%string -> regular h = true).
  { intros n asg -> Hn. destruct HM as [r [t [vs [HR [_ [I _]]]]]]. destruct (plain_fill _ _ _ HR Hn) as [F1 F2]. unfold regular. rewrite (i_fill _ _ I). destruct (h_fill t); try reflexivity; congruence. }
  destruct HF as [n asg m Hn Hc|asg s d Hg Hd Hl|asg|asg Hq|asg|asg s d Hg Hd|asg Hg|p d Hr].
  - destruct (table_size _ _ _ _ Hn Hc HM) as [_ [_ T]]. apply (G n asg eq_refl). intros [H|[H|[]]]; apply T; subst n; cbn; tauto.
  - apply (G _ _ eq_refl). intros [H|[H|[]]]; discriminate.
  - apply (G _ _ eq_refl). intros [H|[H|[]]]; discriminate.
  - unfold regular. rewrite (i_fill _ _ (made_inv _ _ _ _ HDR_MLD HM eq_refl)). cbn [HDR_MLD h_fill]. rewrite !(made_any _ _ _ _ _ HM). fold (queries asg). fold (reports asg). rewrite andb_comm, Hq. reflexivity.
  - unfold regular. rewrite (i_fill _ _ (made_inv _ _ _ _ HDR_SV HM eq_refl)). cbn [HDR_SV h_fill]. rewrite !(made_any _ _ _ _ _ HM). fold (redbox asg). destruct (redbox asg) eqn:Er; [reflexivity|]. cbn [orb existsb].
    assert (Hno : forall fld, In fld ["tlv0_type"; "tlv0_len"]%string -> gives asg fld = false).
    { intros fld Hf. unfold gives. destruct (last_given asg fld) as [s|] eqn:Eg; [|reflexivity]. exfalso. destruct (HA _ _ (last_given_in _ _ _ Eg)) as [_ [o [w [x [Q _]]]]].
      destruct Hf as [<-|[<-|[]]]; discriminate Q. }
    rewrite !Hno by (cbn; tauto). reflexivity.
  - apply (G _ _ eq_refl). intros [H|[H|[]]]; discriminate.
  - apply (G _ _ eq_refl). intros [H|[H|[]]]; discriminate.
  - destruct Hr as [ps|num x ps Hn Hx|ps]; [subst h; reflexivity|destruct HM as [y [_ [_ ->]]]; reflexivity|subst h; reflexivity].
Qed.

Lemma part_bulk : forall p m h, well_put (p, m) -> made (p, m) h -> h_size h <= size_after h + 64 /\ 0 <= size_after h.
Proof.
  intros p m h HW HM. pose proof (form_size _ _ _ HW HM) as HZ. destruct HW as [HF HA]. cbn [fst snd] in *. pose proof (made_named _ _ _ HM) as EN. unfold made in HM. cbn [fst snd] in HM.
  assert (B : forall n asg t, p = Header n asg -> find_tmpl n = Some t -> varhdr t = false -> h_size t <= 64 -> h_size h <= 64).
  { intros n asg t -> Ht Hv Hs. pose proof (made_inv _ _ _ _ t HM Ht) as I. destruct (inv_layout _ _ I Hv) as [_ [_ L]]. lia. }
  assert (P : 0 <= bits m).
  { clear B HZ EN. destruct HF as [n asg m Hn Hc|asg s d Hg Hd Hl|asg|asg Hq|asg|asg s d Hg Hd|asg Hg|p d Hr].
    - apply (cv_pos _ _ (format_covered _ _ Hn)).
    - unfold bits, coap_form. cbn [fold_right snd]. lia.
    - destruct (reports asg), (queries asg); cbn; lia.
    - destruct (reports asg), (queries asg); cbn; lia.
    - destruct (redbox asg); cbn; lia.
    - unfold bits, rtc_form. cbn [fold_right snd]. lia.
    - unfold bits, rtc_form. cbn [fold_right snd]. lia.
    - unfold bits. cbn [fold_right snd]. lia. }
  split; [|lia]. clear P HZ.
  destruct HF as [n asg m Hn Hc|asg s d Hg Hd Hl|asg|asg Hq|asg|asg s d Hg Hd|asg Hg|p d Hr]; cbn [part_name] in EN.
  - destruct (table_size _ _ _ _ Hn Hc HM) as [_ [-> _]]. lia.
  - unfold size_after. rewrite EN. cbn [String.eqb Ascii.eqb Bool.eqb]. lia.
  - specialize (B _ _ HDR_IGMP eq_refl eq_refl eq_refl ltac:(vm_compute; discriminate)). unfold size_after. rewrite EN. cbn [String.eqb Ascii.eqb Bool.eqb]. destruct (is_query h); lia.
  - specialize (B _ _ HDR_MLD eq_refl eq_refl eq_refl ltac:(vm_compute; discriminate)). unfold size_after. rewrite EN. cbn [String.eqb Ascii.eqb Bool.eqb]. destruct (is_query h), (is_report h); lia.
  - specialize (B _ _ HDR_SV eq_refl eq_refl eq_refl ltac:(vm_compute; discriminate)). unfold size_after. rewrite EN. cbn [String.eqb Ascii.eqb Bool.eqb]. destruct (existsb _ _); lia.
  - unfold size_after. rewrite EN. cbn [String.eqb Ascii.eqb Bool.eqb]. lia.
  - unfold size_after. rewrite EN. cbn [String.eqb Ascii.eqb Bool.eqb]. lia.
  - destruct Hr as [ps|num x ps Hn Hx|ps]; cbn [part_name] in EN; unfold size_after; rewrite EN; cbn [String.eqb Ascii.eqb Bool.eqb]; try lia.
    destruct HM as [y [_ [_ ->]]]. change (value_of (opt_header y (option_data (payload ps))) "num") with (Some (be_bytes 2 y)). change (value_of (opt_header y (option_data (payload ps))) "val") with (Some (option_data (payload ps))). cbv iota.
    change (h_size (opt_header y (option_data (payload ps)))) with (2 + zlen (option_data (payload ps))). unfold zlen, option_extra.
    repeat match goal with |- context [if ?c then _ else _] => destruct c end; lia.
Qed.

(** *** Lists of parts *)
Definition sizes_of (hs : list hdr) : Z := fold_right (fun h n => size_after h + n) 0 hs.

Lemma parts_size : forall its hs, Forall well_put its -> Forall2 made its hs -> 8 * sizes_of hs = total its /\ 0 <= sizes_of hs.
Proof.
  intros its hs HW H. induction H as [|[p m] h its hs HM H IH]; [split; [reflexivity|cbn; lia]|]. unfold total, sizes_of in *. cbn [fold_right snd].
  pose proof (form_size _ _ _ (Forall_inv HW) HM). destruct (part_bulk _ _ _ (Forall_inv HW) HM). destruct (IH (Forall_inv_tail HW)). lia.
Qed.

Lemma parts_bulk : forall its hs, Forall well_put its -> Forall2 made its hs -> fold_right (fun h n => h_size h + 4 + n) 0 hs <= sizes_of hs + 68 * Z.of_nat (length its).
Proof.
  intros its hs HW H. induction H as [|[p m] h its hs HM H IH]; [cbn; lia|]. unfold sizes_of in *. cbn [fold_right length]. destruct (part_bulk _ _ _ (Forall_inv HW) HM). specialize (IH (Forall_inv_tail HW)). lia.
Qed.

Lemma parts_regular : forall its hs, Forall well_put its -> Forall2 made its hs -> Forall (fun h => regular h = true) hs.
Proof.
  intros its hs HW H. induction H as [|[p m] h its hs HM H IH]; [constructor|]. constructor; [eapply part_regular; eauto; apply (Forall_inv HW)|apply IH; apply (Forall_inv_tail HW)].
Qed.

Lemma words_count : forall its, (length its <= length (spoken its))%nat.
Proof. induction its as [|[p m] its IH]; [cbn; lia|]. cbn [spoken flat_map length fst]. fold (spoken its). rewrite app_length. destruct p; cbn [part_words length]; lia. Qed.

Lemma made_nth : forall its hs, Forall2 made its hs -> forall k it, nth_error its k = Some it -> exists h, nth_error hs k = Some h /\ made it h.
Proof. intros its hs H. induction H as [|it h its hs HM H IH]; intros [|k] x Hk; cbn [nth_error] in Hk; try discriminate; [apply some_inj in Hk; subst x; exists h; auto|apply IH; auto]. Qed.

Lemma nth_made : forall its hs, Forall2 made its hs -> forall k h, nth_error hs k = Some h -> exists it, nth_error its k = Some it /\ made it h.
Proof. intros its hs H. induction H as [|it h0 its hs HM H IH]; intros [|k] x Hk; cbn [nth_error] in Hk; try discriminate; [apply some_inj in Hk; subst x; exists it; auto|apply IH; auto]. Qed.

Lemma made_names : forall its hs, Forall2 made its hs -> map h_name hs = names_of its.
Proof. intros its hs H. unfold names_of. induction H as [|[p m] h its hs HM H IH]; [reflexivity|]. cbn [map fst]. rewrite IH, (made_named _ _ _ HM). reflexivity. Qed.

Lemma made_firstn : forall its hs, Forall2 made its hs -> forall k, Forall2 made (firstn k its) (firstn k hs).
Proof. intros its hs H. induction H as [|it h its hs HM H IH]; intros [|k]; cbn [firstn]; constructor; auto. Qed.

Lemma well_firstn : forall its, Forall well_put its -> forall k, Forall well_put (firstn k its).
Proof. intros its H k. rewrite Forall_forall in *. intros x Hx. apply H. rewrite <- (firstn_skipn k its). apply in_or_app. auto. Qed.

Lemma total_app : forall a b, total (a ++ b) = total a + total b.
Proof. unfold total. induction a as [|x a IH]; intros b; cbn [app fold_right]; [lia|]. rewrite IH. lia. Qed.

Lemma position_first : forall n l j, position n l = Some j -> nth_error l j = Some n /\ forall i, (i < j)%nat -> nth_error l i <> Some n.
Proof.
  intros n. induction l as [|x l IH]; intros j H; cbn [position] in H; [discriminate|]. destruct (String.eqb_spec x n) as [->|Hne].
  - apply some_inj in H. subst j. split; [reflexivity|intros i Hi; lia].
  - destruct (position n l) as [i|] eqn:E; [|discriminate]. cbn [option_map] in H. apply some_inj in H. subst j. destruct (IH _ eq_refl) as [I1 I2]. split; [exact I1|].
    intros [|i2] Hi; cbn [nth_error]; [congruence|apply I2; lia].
Qed.

Lemma first_ipv6_spec : forall its k j, first_ipv6 its k = Some j -> (j < k)%nat /\ nth_error (names_of its) j = Some "ipv6"%string /\ forall i, (i < j)%nat -> nth_error (names_of its) i <> Some "ipv6"%string.
Proof.
  intros its k j H. unfold first_ipv6 in H. destruct (position_first _ _ _ H) as [H1 H2].
  assert (Hlt : (j < k)%nat) by (assert (nth_error (firstn k (names_of its)) j <> None) by congruence; apply nth_error_Some in H0; rewrite firstn_length in H0; lia).
  assert (G : forall i, (i < k)%nat -> nth_error (firstn k (names_of its)) i = nth_error (names_of its) i) by (intros i Hi; apply nth_firstn; auto).
  rewrite G in H1 by auto. split; [auto|]. split; [auto|]. intros i Hi. rewrite <- G by lia. auto.
Qed.

Lemma mentions_given : forall its hs k h fld, Forall2 made its hs -> nth_error hs k = Some h -> h_name h = "ipv6"%string \/ h_name h = "icmp"%string -> mentions its k fld = given h fld.
Proof.
  intros its hs k h fld H Hk Hn. destruct (nth_made _ _ H _ _ Hk) as [[p m] [Hi HM]]. unfold mentions. rewrite Hi. pose proof (made_named _ _ _ HM) as EN. unfold made in HM. cbn [fst snd] in HM.
  destruct p as [n asg|ps|num ps|ps]; [symmetry; eapply made_given; eauto| | |]; cbn [part_name] in EN; rewrite EN in Hn; destruct Hn; discriminate.
Qed.

Lemma parts_small : forall its, Forall well_put its -> total its <= 8 * 130000 -> Forall small its.
Proof.
  intros its HW HT.
  assert (P : forall it, In it its -> 0 <= bits (snd it)).
    { intros [p m] Hin. rewrite Forall_forall in HW. specialize (HW _ Hin). destruct HW as [HF _]. cbn [fst snd] in *.
      destruct HF as [n asg m Hn Hc|asg s d Hg Hd Hl|asg|asg Hq|asg|asg s d Hg Hd|asg Hg|p d Hr]; [apply (cv_pos _ _ (format_covered _ _ Hn))|unfold bits, coap_form; cbn [fold_right snd]; lia|
        destruct (reports asg), (queries asg); cbn; lia|destruct (reports asg), (queries asg); cbn; lia|destruct (redbox asg); cbn; lia|unfold bits, rtc_form; cbn [fold_right snd]; lia|unfold bits, rtc_form; cbn [fold_right snd]; lia|unfold bits; cbn [fold_right snd]; lia]. }
  clear HW. induction its as [|it its IH]; [constructor|]. unfold total in HT. cbn [fold_right] in HT. fold (total its) in HT.
    assert (0 <= total its). { clear - P. induction its as [|x r IH]; [cbn; lia|]. unfold total. cbn [fold_right]. fold (total r). pose proof (P x ltac:(right; left; auto)). assert (0 <= total r) by (apply IH; intros y [Hy|Hy]; apply P; [left|right; right]; auto). lia. }
    pose proof (P it ltac:(left; auto)). constructor; [unfold small; lia|]. apply IH; [lia|intros x Hx; apply P; right; auto].
Qed.

Lemma made_serialised : forall its hs ws mk, Forall well_put its -> addressed its -> Forall2 made its hs -> (length its <= 100)%nat -> total its <= 8 * 130000 ->
  argc_frame ws = Ret (Some (length ws, MkFrame hs 0 mk)) -> exists f' b, serialised ws (MkFrame hs 0 mk) f' b.
Proof.
  intros its hs ws mk HW HA HM Z4 HT HAcc.
  destruct (parts_size _ _ HW HM) as [Z1 Z2]. pose proof (parts_bulk _ _ HW HM) as Z3. pose proof (parts_regular _ _ HW HM) as HR.
  destruct (serialise_exact _ _ _ HAcc HR) as [[[k [h [K1 [K2 [K3 K4]]]]] _]|[_ [f' [b Hb]]]].
  - unfold modest. cbn [fr_stack]. lia.
  - exfalso. cbn [fr_stack] in *. destruct (nth_made _ _ HM _ _ K1) as [[p m] [Hi Hm]]. pose proof (made_named _ _ _ Hm) as EN. rewrite K2 in EN.
    unfold made in Hm. cbn [fst snd] in Hm. destruct p as [n asg|ps|num ps|ps]; cbn [part_name] in EN; try discriminate. subst n. rewrite (made_given _ _ _ _ _ Hm) in K3.
    destruct (HA _ _ _ Hi K3) as [j [J1 [J2 J3]]]. destruct (first_ipv6_spec _ _ _ J1) as [F1 [F2 F3]]. rewrite <- (made_names _ _ HM) in F2, F3. rewrite nth_error_map in F2.
    destruct (nth_error hs j) as [ip|] eqn:Ej; [|discriminate]. cbn [option_map] in F2. apply some_inj in F2.
    rewrite (mentions_given _ _ _ _ _ HM Ej (or_introl F2)) in J2. rewrite (mentions_given _ _ _ _ _ HM Ej (or_introl F2)) in J3.
    destruct (K4 j ip F1 Ej F2); [|congruence|congruence]. intros i g Hi2 Hg Eg. apply (F3 i Hi2). rewrite nth_error_map, Hg. cbn [option_map]. rewrite Eg. reflexivity.
  - exists f', b. split; [eauto|]. split; auto.
Qed.

Lemma parts_serialised : forall its, Forall well_put its -> addressed its -> separate its -> (length (spoken its) <= 100)%nat -> total its <= 8 * 130000 ->
  exists hs f' b, Forall2 made its hs /\ argc_frame (spoken its) = Ret (Some (length (spoken its), MkFrame hs 0 false)) /\ serialised (spoken its) (MkFrame hs 0 false) f' b.
Proof.
  intros its HW HA HS HL HT. destruct (spoken_accepted its HW (parts_small _ HW HT) HS HL) as [hs [HM HAcc]]. exists hs. pose proof (words_count its) as Z4.
  destruct (made_serialised its hs (spoken its) false) as [f' [b H]]; auto; [lia|]. exists f', b. auto.
Qed.

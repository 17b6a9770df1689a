(** Reading expectations with ignored fields, continued (C83). *)

From Verif Require Import PPrefix PTextIp PTextNum PTextHex PTextMac PTextAddr Frame PSer SpecParse PParse PMatch SpecFrame PFrame PInv PStep PArgs PSoft PFill PGroup PAll PSafe PAssign PField SpecOrigin POrigin PImage PSum PEmit SpecFill PCheck PCheck2 PLen PKeep PTwice PCoap PSegs PWords SpecLayout PLayout Cmd Exec SpecExec PCmd PPair PExec PReplay SpecWhole PWhole SpecExact PExact SpecForm PForm PForm2 PForm3 PForm4 PForm5 SpecWish PWish.

(** *** The texts that are kept *)
Lemma last_none : forall asg n, last_given asg n = None -> forall s, ~ In (n, s) asg.
Proof.
  intros asg n H s Hin. pose proof (in_gives _ _ _ Hin) as K. unfold gives in K. rewrite H in K. discriminate.
Qed.

Lemma last_filter : forall (P : string -> bool) asg n,
  last_given (filter (fun a => negb (asks_ignore (snd a)) && P (fst a)) asg) n =
  if P n then last_given (filter (fun a => negb (asks_ignore (snd a))) asg) n else None.
Proof.
  intros P asg n. induction asg as [|[x s] r IH]; [destruct (P n); reflexivity|]. cbn [filter fst snd].
  destruct (asks_ignore s); cbn [negb andb]; [exact IH|]. destruct (P x) eqn:Ex; cbn [last_given]; rewrite IH.
  - destruct (P n) eqn:En; [reflexivity|]. destruct (String.eqb_spec x n) as [->|]; [congruence|reflexivity].
  - destruct (P n) eqn:En; [|reflexivity]. destruct (last_given (filter (fun a : string * string => negb (asks_ignore (snd a))) r) n); [reflexivity|]. destruct (String.eqb_spec x n) as [->|]; [congruence|reflexivity].
Qed.

Lemma last_text : forall asg n s, last_given asg n = Some s -> asks_ignore s = false -> last_given (filter (fun a => negb (asks_ignore (snd a))) asg) n = Some s.
Proof.
  induction asg as [|[x v] r IH]; intros n s H Hi; [discriminate|]. cbn [last_given filter snd] in *. destruct (last_given r n) as [u|] eqn:E.
  - assert (u = s) by congruence. subst u. specialize (IH n s E Hi). destruct (asks_ignore v); cbn [negb last_given]; [exact IH|]. rewrite IH. reflexivity.
  - destruct (String.eqb_spec x n) as [->|]; [|discriminate]. apply some_inj in H. subst v. rewrite Hi. cbn [negb last_given].
    destruct (last_given (filter _ r) n) as [u|] eqn:E2; [|rewrite String.eqb_refl; reflexivity]. apply last_given_in, filter_In in E2. exfalso. eapply last_none; [exact E|apply E2].
Qed.

Lemma last_kept : forall asg n, last_given (kept asg) n = match last_given asg n with Some s => if asks_ignore s then None else Some s | None => None end.
Proof.
  intros asg n. unfold kept. rewrite (last_filter (fun x => negb (left_out asg None x))). unfold left_out. destruct (last_given asg n) as [s|] eqn:E.
  - destruct (asks_ignore s) eqn:Ei; cbn [negb]; [reflexivity|]. apply last_text; auto.
  - cbn [negb]. destruct (last_given (filter _ asg) n) as [u|] eqn:E2; [|reflexivity]. apply last_given_in, filter_In in E2. exfalso. eapply last_none; [exact E|apply E2].
Qed.

(** *** Templates *)
Lemma rows_var : forallb (fun p => match find_tmpl (fst p) with Some t => forallb (fun f => (negb (is_var (f_parser f)) || odd (fst p) (f_name f)) && negb (f_skip f)) (h_fields t) | None => false end) rows = true.
Proof. vm_compute. reflexivity. Qed.

Lemma row_field : forall n r t ft, row_of n r t -> In ft (h_fields t) -> (is_var (f_parser ft) = true -> odd n (f_name ft) = true) /\ f_skip ft = false.
Proof.
  intros n r t ft HR Hin. pose proof rows_var as K. rewrite forallb_forall in K. specialize (K _ (ro_in _ _ _ HR)). cbn [fst] in K. rewrite (ro_find _ _ _ HR) in K.
  rewrite forallb_forall in K. specialize (K _ Hin). rewrite andb_true_iff, orb_true_iff, !negb_true_iff in K. destruct K as [K1 K2]. split; [|auto]. intros H. destruct K1 as [K1|K1]; [congruence|auto].
Qed.

Definition is_all (all : option string) : bool := match all with Some _ => true | None => false end.

Lemma can_ask : forall n asg m all r t, well_wished (Header n asg, m, all) -> row_of n r t ->
  (forall fld off w, place m fld = Some (off, w) -> fld <> "-"%string -> odd n fld = false -> exists off', place r fld = Some (off', w)) -> Forall (asking t) asg.
Proof.
  intros n asg m all r t [[HF _] [_ HA]] HR HS. cbn [plain fst snd] in HF. apply Forall_forall. intros [fld s] Hin. destruct (HA fld s Hin) as [Hne [off [w [HP [HV _]]]]]. unfold asking. cbn [fst snd].
  destruct HV as [HI|[x HX]].
  - assert (G : existsb (String.eqb fld) keywords = false /\ exists ft, find_field t fld = Some ft); [|destruct G as [G1 [ft G2]]; split; [auto|exists ft; auto]].
    destruct (odd n fld) eqn:Ho.
    + apply odd_in in Ho. cbn [In] in Ho. pose proof (ro_find _ _ _ HR) as Et.
      destruct Ho as [Ho|[Ho|[]]]; apply pair_inj in Ho; destruct Ho as [E1 E2]; subst n fld; vm_compute in Et; apply some_inj in Et; subst t; (split; [reflexivity|eexists; reflexivity]).
    + assert (Hd : fld <> "-"%string) by (intros ->; apply Hne; left; auto). assert (Hi : fld <> "ignore"%string) by (intros ->; apply Hne; right; left; auto).
      destruct (HS fld off w HP Hd Ho) as [off' HP']. pose proof (ro_fields _ _ _ HR fld (place_listed _ _ _ _ _ HP') Ho Hi) as FF.
      unfold field_fits in FF. apply String.eqb_neq in Hd. rewrite Hd, HP' in FF. cbn [orb] in FF. rewrite andb_true_iff, negb_true_iff in FF. destruct FF as [FF1 FF2]. split; [exact FF1|]. destruct (find_field t fld); [eauto|discriminate].
  - destruct (stands_reads _ _ _ _ _ _ _ _ _ _ HF HR HS HP Hne HX) as [K1 [K2 [ft [v [F1 [_ [F2 _]]]]]]]. split; [auto|]. exists ft. split; [auto|]. right. eauto.
Qed.

Lemma kept_in : forall asg n s, In (n, s) (kept asg) -> In (n, s) asg /\ asks_ignore s = false.
Proof. intros asg n s H. unfold kept in H. apply filter_In in H. cbn [fst snd] in H. rewrite andb_true_iff, !negb_true_iff in H. tauto. Qed.

Lemma fixed_kept : forall n asg m all r t, well_wished (Header n asg, m, all) -> row_of n r t -> no_var t (kept asg) -> fixed_texts t asg.
Proof.
  intros n asg m all r t [_ [_ HA]] HR NV fld s ft Hin Hi Hf. destruct (is_var (f_parser ft)) eqn:Ev; [|reflexivity].
  destruct (find_field_in _ _ _ Hf) as [F1 F2]. destruct (row_field _ _ _ _ HR F1) as [Ho _]. specialize (Ho Ev). rewrite F2 in Ho. apply odd_in in Ho.
  destruct (left_out asg None fld) eqn:El.
  - exfalso. unfold left_out in El. destruct (last_given asg fld) as [u|] eqn:Eg; [|discriminate]. pose proof (last_given_in _ _ _ Eg) as Hu. destruct (HA _ _ Hu) as [_ [off [w [_ [_ K]]]]].
    rewrite (K Ho El s Hin) in Hi. discriminate.
  - rewrite <- Ev. eapply NV; [|exact Hf]. unfold kept. apply filter_In. split; [exact Hin|]. cbn [fst snd]. rewrite Hi, El. reflexivity.
Qed.

(** *** What is made of a wish *)
Definition made_wish (x : wish) (h : hdr) : Prop :=
  made (plain x) h /\
  match x with
  | (Header n asg, _, all) => skips h = over (by_word asg) [] (map (fun f => (f_name f, is_all all)) (h_fields h))
  | _ => True
  end.

Lemma inv_skip_all : forall t h, inv t h -> inv t (set_fields (map (set_skip true) (h_fields h)) h).
Proof.
  intros t h I. apply inv_change; auto.
  - rewrite map_map. apply map_ext. intros f. apply keeps_fsig. apply keeps_set_skip.
  - rewrite map_map. apply map_ext. intros f. apply keeps_lay. apply keeps_set_skip.
  - apply Forall_map. eapply Forall_impl; [|apply (i_val _ _ I)]. intros f. apply fok_set_skip.
Qed.

Lemma over_names : forall A B (g : string -> A -> A) (l : list (string * A)) (c : B) seen, map (fun x => (fst x, c)) (over g seen l) = map (fun x => (fst x, c)) l.
Proof. intros A B g l c. induction l as [|x r IH]; intros seen; [reflexivity|]. cbn [over map fst]. rewrite IH. reflexivity. Qed.

Definition all_words (all : option string) : list string := match all with Some w => [w] | None => [] end.

Lemma hpf_first : forall fuel w r h pad mask, asks_ignore w = true ->
  hpf_loop (S fuel) (w :: r) 0 h pad mask = hpf_loop fuel r 1 (set_fields (map (set_skip true) (h_fields h)) h) pad true.
Proof.
  intros fuel w r h pad mask H. pose proof (ignore_facts _ H) as Hw. cbn [hpf_loop].
  assert (Eh : String.eqb w "help" = false) by (unfold is_ign in Hw; destruct (String.eqb_spec w "help") as [->|]; [discriminate Hw|reflexivity]). rewrite Eh, Hw. reflexivity.
Qed.

Lemma ask_header : forall n asg m all rest mk, well_wished (Header n asg, m, all) -> next_ok (Header n asg) rest ->
  exists t h mk', find_tmpl n = Some t /\ parse_hdr (all_words all ++ words_of asg ++ rest) t 0 mk = Ret (POk (length (all_words all) + 2 * length asg) h 0 mk') /\ made_wish (Header n asg, m, all) h.
Proof.
  intros n asg m all rest mk HW HN. pose proof HW as [[HF HK] [HA0 HA]]. cbn [plain fst snd] in HF, HK. destruct (form_row _ _ _ HF) as [r [Hr HS]]. destruct (row_found _ _ Hr) as [t HR].
  destruct (well_reading n (kept asg) m r t HF HR HS (kept asg) HK) as [vs HV]. pose proof (can_ask _ _ _ _ _ _ HW HR HS) as HQ.
  set (h0 := if is_all all then set_fields (map (set_skip true) (h_fields t)) t else t).
  assert (I0 : inv t h0) by (unfold h0; destruct (is_all all); [apply inv_skip_all|]; apply (inv_init _ (ro_tmpl _ _ _ HR))).
  assert (V0 : vals h0 = vals t) by (unfold h0; destruct (is_all all); [unfold vals; cbn [set_fields h_fields]; rewrite map_map; reflexivity|reflexivity]).
  assert (S0 : skips h0 = map (fun f => (f_name f, is_all all)) (h_fields t)).
  { unfold h0, skips. destruct (is_all all) eqn:Ea; cbn [set_fields h_fields]; [rewrite map_map; reflexivity|]. apply map_ext_in. intros f Hf. rewrite (proj2 (row_field _ _ _ _ HR Hf)). reflexivity. }
  assert (L0 : map lay (h_fields h0) = map lay (h_fields t) /\ h_size h0 = h_size t) by (unfold h0; destruct (is_all all); [cbn [set_fields h_fields h_size]; rewrite map_map; split; [apply map_ext; reflexivity|reflexivity]|auto]).
  set (mk0 := if is_all all then true else mk). set (i0 := length (all_words all)).
  destruct (ask_all asg t h0 (S (length asg + length rest)) i0 rest 0 mk0 (ro_tmpl _ _ _ HR) (ro_pl _ _ _ HR) I0 HQ) as [h [mk' [I [Ev [Es [J1 [J2 J3]]]]]]].
  exists t, h, mk'. split; [apply (ro_find _ _ _ HR)|]. split; [|split].
  - assert (E : hpf_loop (length asg + S (length asg + length rest)) (words_of asg ++ rest) i0 h0 0 mk0 = Ret (POk (i0 + 2 * length asg) h 0 mk')).
    { rewrite J3. apply (hpf_end t h rest _ _ _ _ (Header n asg)); [lia|auto|auto|apply (ro_heads _ _ _ HR)|apply (ro_name _ _ _ HR)]. }
    unfold parse_hdr. rewrite (ro_parser _ _ _ HR). unfold hdr_parse_fields. unfold h0, mk0, i0, is_all in *. destruct all as [w|]; cbn [all_words app length] in *.
    + rewrite (hpf_first _ w _ t 0 mk (HA0 w eq_refl)).
      replace (S (length (words_of asg ++ rest))) with (length asg + S (length asg + length rest))%nat by (rewrite app_length, words_length; lia). exact E.
    + replace (S (length (words_of asg ++ rest))) with (length asg + S (length asg + length rest))%nat by (rewrite app_length, words_length; lia). exact E.
  - unfold made. cbn [plain fst snd]. exists r, t, vs. split; [auto|]. split; [auto|]. split; [auto|]. split; [auto|]. split; [|split].
    + rewrite Ev, V0, (set_all_over t _ _ HV). apply over_ext. intros x b Hb. unfold by_text. rewrite last_kept.
      assert (b = None). { unfold vals in Hb. apply in_map_iff in Hb. destruct Hb as [f [E Hf]]. apply pair_inj in E. destruct E as [_ <-]. pose proof rows_unset as K. rewrite forallb_forall in K. specialize (K _ (ro_in _ _ _ HR)). cbn [fst] in K. rewrite (ro_find _ _ _ HR) in K.
        unfold all_unset in K. rewrite forallb_forall in K. specialize (K _ Hf). destruct (f_val f); [discriminate|reflexivity]. }
      subst b. destruct (last_given asg x) as [s|]; [|reflexivity]. destruct (asks_ignore s) eqn:Ei; [reflexivity|]. rewrite Ei. reflexivity.
    + intros NV. destruct L0 as [L1 L2]. destruct (J1 (fixed_kept _ _ _ _ _ _ HW HR NV)) as [M1 M2]. split; congruence.
    + intros NV. apply J2. right. intros FT. apply NV. intros x s ft Hin Hf. destruct (kept_in _ _ _ Hin) as [K1 K2]. eapply FT; eauto.
  - rewrite Es, S0. f_equal.
    assert (EN : names (h_fields h) = names (h_fields t)) by (apply (names_sig _ _ _ (i_sig _ _ I))).
    unfold names in EN. clear - EN. revert EN. generalize (h_fields h), (h_fields t). induction l as [|x l IH]; intros [|y l2] E; try discriminate; [reflexivity|]. cbn [map] in *. f_equal; [congruence|]. apply IH. congruence.
Qed.

Lemma wish_starts : forall x, exists r, wish_words x = part_name (fst (plain x)) :: r.
Proof. intros [[[n asg|ps|num ps|ps] m] [w|]]; cbn [wish_words plain fst part_name]; eexists; reflexivity. Qed.

Lemma ask_part : forall x rest mk, well_wished x -> small (plain x) -> next_ok (fst (plain x)) rest ->
  exists t h r mk', find_tmpl (part_name (fst (plain x))) = Some t /\ wish_words x = part_name (fst (plain x)) :: r /\ parse_hdr (r ++ rest) t 0 mk = Ret (POk (length r) h 0 mk') /\ made_wish x h.
Proof.
  intros [[p m] all] rest mk HW HS HN. destruct p as [n asg|ps|num ps|ps].
  - cbn [plain fst snd part_name] in *. destruct (ask_header n asg m all rest mk HW HN) as [t [h [mk' [H1 [H2 H3]]]]]. exists t, h, (all_words all ++ words_of asg)%list, mk'.
    split; [auto|]. split; [destruct all; reflexivity|]. split; [|auto]. rewrite <- app_assoc, app_length, words_length. exact H2.
  - destruct HW as [[HF [W1 W2]] ->]. unfold small in HS. cbn [plain fst snd part_name] in *. destruct (raw_form _ _ HF) as [d [HR ->]]; [discriminate|]. inversion HR; subst. unfold bits in HS. cbn [map snd fold_right] in HS.
    exists HDR_PAYLOAD, (raw (payload ps)), (flat_map piece_words ps), mk. split; [vm_compute; reflexivity|]. split; [reflexivity|]. split; [|split; [reflexivity|exact I]]. apply parse_data; auto. unfold size_limit. lia.
  - destruct HW as [[HF [W1 [W2 W3]]] ->]. cbn [plain fst snd part_name] in *. destruct (raw_form _ _ HF) as [d [HR ->]]; [discriminate|]. inversion HR; subst.
    exists HDR_COAP_OPTIONS, (opt_header x (option_data (payload ps))), ("num" :: num :: "val" :: flat_map piece_words ps)%string, mk. split; [vm_compute; reflexivity|]. split; [reflexivity|]. split; [|split].
    + cbn [app length]. apply parse_option; auto.
    + exists x. auto.
    + exact I.
  - destruct HW as [[HF [W1 W2]] ->]. unfold small in HS. cbn [plain fst snd part_name] in *. destruct (raw_form _ _ HF) as [d [HR ->]]; [discriminate|]. inversion HR; subst. unfold bits in HS. cbn [map snd fold_right length] in HS.
    exists HDR_COAP_PARMS, (parms_header (payload ps)), ("par" :: flat_map piece_words ps)%string, mk. split; [vm_compute; reflexivity|]. split; [reflexivity|]. split; [|split; [reflexivity|exact I]].
    cbn [app length]. apply parse_parms; auto. unfold size_limit. lia.
Qed.

Lemma well_plain : forall ws, Forall well_wished ws -> Forall well_put (map plain ws).
Proof. intros ws H. apply Forall_map. eapply Forall_impl; [|exact H]. intros x [K _]. exact K. Qed.

(** What may follow the words of a frame: the next command. *)
Definition next_command (rest : list string) : Prop := rest = [] \/ exists w r, rest = w :: r /\ In w ["rx"; "tx"; "name"]%string.

Lemma asked_loop : forall ws rest fuel i stk mk, Forall well_wished ws -> Forall small (map plain ws) -> separate (map plain ws) -> next_command rest ->
  (length (asked ws) + length rest < fuel)%nat -> zlen stk + Z.of_nat (length (asked ws)) <= 100 ->
  exists hs mk', Forall2 made_wish ws hs /\
    argc_frame_loop fuel (asked ws ++ rest) i (MkFrame stk 0 mk) = Ret (Some (i + length (asked ws), MkFrame (stk ++ hs) 0 mk'))%nat.
Proof.
  induction ws as [|x ws IH]; intros rest fuel i stk mk HW HSm HSep HC Hf Hs.
  - exists [], mk. split; [constructor|]. destruct fuel as [|fuel]; [cbn in Hf; lia|]. cbn [asked flat_map length app]. rewrite app_nil_r, Nat.add_0_r.
    destruct HC as [-> |[w [r [-> Hw]]]]; [reflexivity|]. cbn [argc_frame_loop]. assert (E : String.eqb w "help" = false /\ find_tmpl w = None) by (destruct Hw as [<-|[<-|[<-|[]]]]; split; vm_compute; reflexivity). destruct E as [-> ->]. reflexivity.
  - assert (HN : next_ok (fst (plain x)) (asked ws ++ rest)).
    { destruct ws as [|y ws2]; [cbn [asked flat_map app]; destruct HC as [-> |[w [r [-> Hw]]]]; [exact I|]; split; [destruct Hw as [<-|[<-|[<-|[]]]]; [left|right; left|right; right; left]; reflexivity|intros _ E; subst w; destruct Hw as [E|[E|[E|[]]]]; discriminate E]|].
      cbn [asked flat_map]. destruct (wish_starts y) as [r Eq]. rewrite Eq. cbn [app next_ok]. split.
      - apply Forall_inv_tail, Forall_inv in HW. destruct HW as [[HW _] _]. apply heads_next. eapply part_head; exact HW.
      - intros Ep Eq2. pose proof (Forall_inv HW) as [[HFp _] _]. pose proof (Forall_inv (Forall_inv_tail HW)) as [[HFq _] _].
        specialize (HSep 0%nat). cbn [map nth_error] in HSep. destruct (plain x) as [p m], (plain y) as [q m2]. cbn [fst snd] in *.
        destruct q as [n2 asg2|ps2|num2 ps2|ps2]; cbn [part_name] in Eq2; try discriminate Eq2.
        + subst n2. destruct (form_row _ _ _ HFq) as [r2 [Hr2 _]]. assert (K : existsb (fun x => String.eqb "data" (fst x)) rows = true) by (apply existsb_exists; exists ("data"%string, r2); split; [auto|apply String.eqb_refl]).
          vm_compute in K. discriminate.
        + destruct p as [n asg|ps|num ps|ps]; cbn [part_name] in Ep; try discriminate Ep. subst n. exact (HSep asg m ps2 m2 eq_refl eq_refl). }
    cbn [map] in HSm.
    destruct (ask_part x (asked ws ++ rest) mk (Forall_inv HW) (Forall_inv HSm) HN) as [t [h [r [mk1 [H1 [H2 [H3 H4]]]]]]].
    cbn [asked flat_map] in *. fold (asked ws) in *. rewrite H2 in *. cbn [app length] in *. rewrite <- app_assoc. rewrite app_length in *. destruct fuel as [|fuel]; [lia|].
    destruct (IH rest fuel (i + 1 + length r)%nat (stk ++ [h]) mk1 (Forall_inv_tail HW) (Forall_inv_tail HSm)) as [hs [mk' [I1 I2]]];
      [intros k a m1 ps m2 K1 K2; apply (HSep (S k) a m1 ps m2); auto|exact HC|lia|rewrite zlen_app, zlen_cons, zlen_nil; lia|].
    exists (h :: hs), mk'. split; [constructor; auto|]. cbn [argc_frame_loop].
    assert (Eh : String.eqb (part_name (fst (plain x))) "help" = false).
    { pose proof heads_help as K. rewrite forallb_forall in K. apply negb_true_iff, K. destruct (Forall_inv HW) as [[HFp _] _]. eapply part_head; exact HFp. }
    rewrite Eh, H1. cbn [fr_stack fr_padding fr_has_mask]. unfold FRAME_STACK_MAX. destruct (Z.leb_spec 100 (zlen stk)); [lia|].
    rewrite H3. cbn [bind]. rewrite skipn_app, skipn_all, Nat.sub_diag. cbn [skipn app]. rewrite I2, <- app_assoc. cbn [app].
    match goal with |- Ret (Some (?a, _)) = Ret (Some (?b, _)) => replace b with a by lia end. reflexivity.
Qed.

Lemma wish_count : forall ws, (length ws <= length (asked ws))%nat.
Proof. induction ws as [|x ws IH]; [cbn; lia|]. cbn [asked flat_map length]. fold (asked ws). rewrite app_length. destruct (wish_starts x) as [r ->]. cbn [length]. lia. Qed.

Lemma made_plain : forall ws hs, Forall2 made_wish ws hs -> Forall2 made (map plain ws) hs.
Proof. intros ws hs H. induction H as [|x h ws hs [K _] H IH]; cbn [map]; constructor; auto. Qed.

(** *** The whole line *)
Lemma asked_serialised : forall ws, Forall well_wished ws -> addressed (map plain ws) -> separate (map plain ws) -> (length (asked ws) <= 100)%nat -> total (map plain ws) <= 8 * 130000 ->
  exists hs mk f' b, Forall2 made_wish ws hs /\ argc_frame (asked ws) = Ret (Some (length (asked ws), MkFrame hs 0 mk)) /\ serialised (asked ws) (MkFrame hs 0 mk) f' b.
Proof.
  intros ws HW HA HS HL HT. pose proof (well_plain _ HW) as HP. destruct (asked_loop ws [] (S (length (asked ws))) 0 [] false HW (parts_small _ HP HT) HS) as [hs [mk [H1 H2]]]; [left; reflexivity|cbn [length]; lia|rewrite zlen_nil; lia|]. rewrite app_nil_r in H2.
  assert (HAcc : argc_frame (asked ws) = Ret (Some (length (asked ws), MkFrame hs 0 mk))).
  { unfold argc_frame, FRAME_STACK_MAX, zlen. destruct (Z.ltb_spec 100 (Z.of_nat (length (asked ws)))); [lia|]. exact H2. }
  pose proof (wish_count ws). destruct (made_serialised (map plain ws) hs (asked ws) mk HP HA (made_plain _ _ H1)) as [f' [b H3]]; auto; [rewrite map_length; lia|].
  exists hs, mk, f', b. auto.
Qed.

(** The words of a command that follow a frame do not change it. *)
Lemma asked_before : forall ws rest f, well_asked ws -> next_command rest -> (length (asked ws) + length rest <= 100)%nat ->
  argc_frame (asked ws) = Ret (Some (length (asked ws), f)) -> argc_frame (asked ws ++ rest) = Ret (Some (length (asked ws), f)).
Proof.
  intros ws rest f [_ [HW [HA [HS [HL HT]]]]] HC HL2 H. pose proof (well_plain _ HW) as HP.
  destruct (asked_loop ws rest (S (length (asked ws ++ rest))) 0 [] false HW (parts_small _ HP HT) HS HC) as [hs [mk [H1 H2]]]; [rewrite app_length; lia|rewrite zlen_nil; lia|].
  assert (HAcc : argc_frame (asked ws ++ rest) = Ret (Some (length (asked ws), MkFrame hs 0 mk))).
  { unfold argc_frame, FRAME_STACK_MAX, zlen. rewrite app_length. destruct (Z.ltb_spec 100 (Z.of_nat (length (asked ws) + length rest))); [lia|]. rewrite app_length in H2. exact H2. }
  pose proof (argc_prefix _ _ _ (length (asked ws)) HAcc (le_n _)) as K. rewrite firstn_app, firstn_all, Nat.sub_diag in K. cbn [firstn] in K. rewrite app_nil_r in K. congruence.
Qed.

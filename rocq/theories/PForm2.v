(** Reading the parts of a frame, continued (C82). *)

From Verif Require Import PTextIp PTextNum PTextHex PTextMac PTextAddr Frame PSer SpecParse PParse PMatch SpecFrame PFrame PInv PStep PArgs PSoft PFill PGroup PAll PSafe PAssign PField SpecOrigin POrigin PImage PSum PEmit SpecFill PCheck PCheck2 PLen PKeep PTwice PCoap PSegs PWords SpecLayout PLayout Cmd Exec SpecExec PCmd PPair PExec PReplay SpecWhole PWhole SpecExact PExact SpecForm PForm.

(** *** Forms against templates *)
Definition odd_rows : list (string * format) :=
  [ ("igmp"%string, igmp_form false true ++ [ ("rresv"%string, 16); ("ng"%string, 16) ]); ("mld"%string, mld_form false true ++ [ ("rresv"%string, 16); ("ng"%string, 16) ]);
    ("sv"%string, sv_form true); ("profinet-rtc"%string, rtc_form 320) ].

Definition rows : list (string * format) :=
  formats ++ odd_rows.

Definition heads : list string := ("data" :: "coap-opt" :: "coap-parms" :: map fst rows)%string.

(** The words that may follow a part: those that start another one, and those that start
    the next command. *)
Definition next_words : list string := ("rx" :: "tx" :: "name" :: heads)%string.

Lemma heads_next : forall w, In w heads -> In w next_words.
Proof. intros w H. right. right. right. exact H. Qed.

Definition odd (n fld : string) : bool := (String.eqb n "coap" && String.eqb fld "token") || (String.eqb n "profinet-rtc" && String.eqb fld "data").

Lemma odd_in : forall n fld, odd n fld = true <-> In (n, fld) [("coap", "token"); ("profinet-rtc", "data")]%string.
Proof.
  intros n fld. unfold odd. rewrite orb_true_iff, !andb_true_iff, !String.eqb_eq. cbn [In]. split.
  - intros [[-> ->]|[-> ->]]; tauto.
  - intros [H|[H|[]]]; apply pair_inj in H; destruct H as [<- <-]; tauto.
Qed.

Definition head_ok (t : hdr) (w : string) : bool :=
  negb (existsb (String.eqb w) keywords) &&
  (negb (existsb (fun f => String.eqb (f_name f) w) (h_fields t)) || (String.eqb (h_name t) "profinet-rtc" && String.eqb w "data")).

Definition row_fits (p : string * format) : bool :=
  match find_tmpl (fst p) with
  | Some t =>
      match h_parser t with HP_fields => true | _ => false end && negb (is_pl t) &&
      forallb (fun fld => odd (fst p) fld || String.eqb fld "ignore" || field_fits (fst p) t (snd p) fld) (map fst (snd p)) && forallb (head_ok t) next_words
  | None => false
  end.

Lemma rows_fit : forallb row_fits rows = true.
Proof. vm_compute. reflexivity. Qed.

Lemma heads_ok : forallb (fun w => negb (existsb (String.eqb w) ["help"; "hex"; "ascii"; "ascii0"; "repeat"; "pattern"]%string)) next_words = true.
Proof. vm_compute. reflexivity. Qed.

Lemma heads_multi : forallb (fun w => head_ok HDR_COAP_OPTIONS w && head_ok HDR_COAP_PARMS w) next_words = true.
Proof. vm_compute. reflexivity. Qed.

Lemma place_mem : forall m p fld off w, place_from p m fld = Some (off, w) -> In (fld, w) m.
Proof.
  induction m as [|[n w0] r IH]; intros p fld off w H; cbn [place_from] in H; [discriminate|].
  destruct (String.eqb_spec n fld) as [->|]; [left; congruence|]. right. eapply IH. eauto.
Qed.

(** Every form is made of fields of the row. *)
Definition sub_row (m r : format) : bool :=
  forallb (fun q => String.eqb (fst q) "-" || match place r (fst q) with Some (_, w) => w =? snd q | None => false end) m.

Lemma sub_row_spec : forall m r fld off w, sub_row m r = true -> place m fld = Some (off, w) -> fld <> "-"%string -> exists off', place r fld = Some (off', w).
Proof.
  intros m r fld off w H HP Hne. unfold sub_row in H. rewrite forallb_forall in H. specialize (H _ (place_mem _ _ _ _ _ HP)). cbn [fst snd] in H.
  apply String.eqb_neq in Hne. rewrite Hne in H. cbn [orb] in H. destruct (place r fld) as [[o w']|]; [|discriminate]. apply Z.eqb_eq in H. subst w'. eauto.
Qed.

Lemma table_row : forall n m, In (n, m) formats -> sub_row m m = true.
Proof.
  intros n m H. assert (K : forallb (fun p => sub_row (snd p) (snd p)) formats = true) by (vm_compute; reflexivity). rewrite forallb_forall in K. apply (K _ H).
Qed.

Lemma form_row : forall n asg m, form (Header n asg) m -> exists r, In (n, r) rows /\
  forall fld off w, place m fld = Some (off, w) -> fld <> "-"%string -> odd n fld = false -> exists off', place r fld = Some (off', w).
Proof.
  intros n asg m H.
  assert (IN : forall q, In q odd_rows -> In q rows) by (intros q Hq; apply in_or_app; right; exact Hq).
  inversion H; subst.
  - exists m. split; [apply in_or_app; left; auto|]. intros fld off w HP Hne _. eapply sub_row_spec; eauto. eapply table_row; eauto.
  - exists [("ver", 2); ("type", 2); ("tkl", 4); ("code", 8); ("msgid", 16)]%string. split; [apply in_or_app; left; unfold formats; cbn [In]; tauto|].
    intros fld off w HP Hne Ho. pose proof (place_mem _ _ _ _ _ HP) as Hin. unfold coap_form in Hin. cbn [In] in Hin.
    repeat match type of Hin with _ \/ _ => destruct Hin as [Hin|Hin] end; try (apply pair_inj in Hin; destruct Hin as [<- <-]); try discriminate Ho; try (eexists; reflexivity). destruct Hin.
  - eexists. split; [apply IN; left; reflexivity|]. intros fld off w HP Hne _. eapply sub_row_spec; eauto. destruct (reports asg), (queries asg); vm_compute; reflexivity.
  - eexists. split; [apply IN; right; left; reflexivity|]. intros fld off w HP Hne _. eapply sub_row_spec; eauto. destruct (reports asg), (queries asg); vm_compute; reflexivity.
  - eexists. split; [apply IN; right; right; left; reflexivity|]. intros fld off w HP Hne _. eapply sub_row_spec; eauto. destruct (redbox asg); vm_compute; reflexivity.
  - eexists. split; [apply IN; right; right; right; left; reflexivity|]. intros fld off w HP Hne Ho. pose proof (place_mem _ _ _ _ _ HP) as Hin. unfold rtc_form in Hin. cbn [In] in Hin.
    repeat match type of Hin with _ \/ _ => destruct Hin as [Hin|Hin] end; try (apply pair_inj in Hin; destruct Hin as [<- <-]); try discriminate Ho; try (eexists; reflexivity). destruct Hin.
  - eexists. split; [apply IN; right; right; right; left; reflexivity|]. intros fld off w HP Hne _. eapply sub_row_spec; eauto. vm_compute. reflexivity.
  - match goal with H : raw_bytes (Header _ _) _ |- _ => inversion H end.
Qed.

Record row_of (n : string) (r : format) (t : hdr) : Prop := MkRow {
  ro_in : In (n, r) rows;
  ro_tmpl : In t hdr_tmpls;
  ro_name : h_name t = n;
  ro_find : find_tmpl n = Some t;
  ro_parser : h_parser t = HP_fields;
  ro_pl : is_pl t = false;
  ro_fields : forall fld, In fld (map fst r) -> odd n fld = false -> fld <> "ignore"%string -> field_fits n t r fld = true;
  ro_heads : forall w, In w next_words -> head_ok t w = true }.

Lemma row_found : forall n r, In (n, r) rows -> exists t, row_of n r t.
Proof.
  intros n r H. pose proof rows_fit as K. rewrite forallb_forall in K. specialize (K _ H). unfold row_fits in K. cbn [fst snd] in K.
  destruct (find_tmpl n) as [t|] eqn:Et; [|discriminate]. rewrite !andb_true_iff in K. destruct K as [[[K1 K2] K3] K4]. destruct (find_tmpl_in _ _ Et) as [Ht Hn].
  exists t. constructor; auto.
  - destruct (h_parser t); auto; discriminate.
  - apply negb_true_iff in K2. auto.
  - intros fld Hf Ho Hi. rewrite forallb_forall in K3. specialize (K3 _ Hf). cbv beta in K3. apply String.eqb_neq in Hi. rewrite Ho, Hi in K3. exact K3.
  - intros w Hw. rewrite forallb_forall in K4. auto.
Qed.

(** *** Values *)
Lemma stands_reads : forall n asg m r t fld off w s x, form (Header n asg) m -> row_of n r t ->
  (forall fld off w, place m fld = Some (off, w) -> fld <> "-"%string -> odd n fld = false -> exists off', place r fld = Some (off', w)) ->
  place m fld = Some (off, w) -> ~ In fld ["-"; "ignore"]%string -> stands_for n fld w s x ->
  existsb (String.eqb fld) keywords = false /\ existsb (String.eqb s) keywords = false /\
  exists ft v, find_field t fld = Some ft /\ f_val ft = None /\ reads ft s v /\ positional 256 v mod 2 ^ w = x mod 2 ^ w.
Proof.
  intros n asg m r t fld off w s x HF HR HS HP Hni H.
  assert (Hne : fld <> "-"%string) by (intros ->; apply Hni; left; auto). assert (Hi : fld <> "ignore"%string) by (intros ->; apply Hni; right; left; auto).
  destruct H as [s x Ho HM|s d E Hd Hl|s d E Hd Hn Hl].
  - assert (Ho' : odd n fld = false) by (destruct (odd n fld) eqn:Eo; [apply odd_in in Eo; tauto|auto]).
    destruct (HS fld off w HP Hne Ho') as [off' HP']. pose proof (ro_fields _ _ _ HR fld (place_listed _ _ _ _ _ HP') Ho' Hi) as FF.
    assert (Hf : exists ft, find_field t fld = Some ft).
    { unfold field_fits in FF. apply String.eqb_neq in Hne. rewrite Hne, HP' in FF. cbn [orb] in FF. rewrite andb_true_iff in FF. destruct FF as [_ FF]. destruct (find_field t fld); [eauto|discriminate]. }
    destruct Hf as [ft Hft]. destruct (means_read n t r fld off' w ft s x FF Hne HP' Hft HM) as [E1 [E2 [E3 [E4 [E5 [l [E6 E7]]]]]]].
    split; [auto|]. split; [auto|]. exists ft, l. split; [auto|]. split; [auto|]. split; [|auto]. rewrite <- bytes_of_width in E6 by lia. unfold reads. destruct (f_parser ft); try exact E6; discriminate E6.
  - apply pair_inj in E. destruct E as [-> ->]. pose proof (ro_find _ _ _ HR) as Et. assert (t = HDR_COAP) by (vm_compute in Et; vm_compute; congruence). subst t.
    assert (Hd0 : d <> []) by (destruct d; [cbn in Hl; lia|discriminate]).
    pose proof (parse_var_hex_dump_min d s 1 Hd Hd0 ltac:(lia)) as HV. replace (Z.to_nat 1 - length d)%nat with 0%nat in HV by lia. cbn [repeat] in HV. rewrite app_nil_r in HV.
    split; [reflexivity|]. split.
    + destruct (existsb (String.eqb s) keywords) eqn:Ek; [|auto]. apply existsb_exists in Ek. destruct Ek as [k [Hk Es]]. apply String.eqb_eq in Es. subst k. exfalso. clear - HV Hk.
      destruct Hk as [<-|[<-|[<-|[]]]]; vm_compute in HV; discriminate.
    + exists (MkField "token" false 0 32 None None FP_coap_token), d. split; [reflexivity|]. split; [reflexivity|]. split; [|reflexivity]. unfold reads. cbn [f_parser]. split; [auto|unfold zlen; lia].
  - apply pair_inj in E. destruct E as [-> ->]. pose proof (ro_find _ _ _ HR) as Et. assert (t = HDR_PNET_RTC) by (vm_compute in Et; vm_compute; congruence). subst t.
    pose proof (parse_var_hex_dump_min d s 40 Hd Hn ltac:(lia)) as HV. change (Z.to_nat 40) with 40%nat in HV.
    split; [reflexivity|]. split.
    + destruct (existsb (String.eqb s) keywords) eqn:Ek; [|auto]. apply existsb_exists in Ek. destruct Ek as [k [Hk Es]]. apply String.eqb_eq in Es. subst k. exfalso. clear - HV Hk.
      destruct Hk as [<-|[<-|[<-|[]]]]; vm_compute in HV; discriminate.
    + exists (MkField "data" false 320 16 None None FP_profinet), (d ++ zeros (40 - length d))%list. split; [reflexivity|]. split; [reflexivity|]. split; [|reflexivity]. unfold reads. cbn [f_parser]. split; [exact HV|].
      unfold zlen, zeros. rewrite app_length, repeat_length. unfold size_limit. lia.
Qed.

(** *** What is made of a part *)
Definition opt_header (x : Z) (v : buf) : hdr := opt_hdr false false (zlen v * 8) (2 + zlen v) (Some (be_bytes 2 x)) (Some v).
Definition parms_header (v : buf) : hdr :=
  MkHdr "coap-parms" 0 (zlen (255 :: v)) [MkField "par" false (zlen (255 :: v) * 8) 0 None (Some (255 :: v)) FP_coap_parms] FL_none HP_fields.

Definition made_header (n : string) (asg : list (string * string)) (m : format) (h : hdr) : Prop :=
  exists r t vs, row_of n r t /\
    (forall fld off w, place m fld = Some (off, w) -> fld <> "-"%string -> odd n fld = false -> exists off', place r fld = Some (off', w)) /\
    inv t h /\ Forall2 (reading t) asg vs /\ vals h = set_all vs (vals t) /\
    (no_var t asg -> map lay (h_fields h) = map lay (h_fields t) /\ h_size h = h_size t) /\ (~ no_var t asg -> tight h).

Definition made (it : item) (h : hdr) : Prop :=
  match fst it with
  | Header n asg => made_header n asg (snd it) h
  | Data ps => h = raw (payload ps)
  | CoapOption num ps => exists x, number num x /\ 0 <= x < 65536 /\ h = opt_header x (option_data (payload ps))
  | CoapPayload ps => h = parms_header (payload ps)
  end.

Lemma well_reading : forall n asg m r t, form (Header n asg) m -> row_of n r t ->
  (forall fld off w, place m fld = Some (off, w) -> fld <> "-"%string -> odd n fld = false -> exists off', place r fld = Some (off', w)) ->
  forall a, (forall fld s, In (fld, s) a -> ~ In fld ["-"; "ignore"]%string /\ exists off w x, place m fld = Some (off, w) /\ stands_for n fld w s x) ->
  exists vs, Forall2 (reading t) a vs.
Proof.
  intros n asg m r t HF HR HS a. induction a as [|[fld s] a IH]; intros HA; [exists []; constructor|].
  destruct (HA fld s (or_introl eq_refl)) as [Hne [off [w [x [HP HM]]]]]. destruct (stands_reads _ _ _ _ _ _ _ _ _ _ HF HR HS HP Hne HM) as [K1 [K2 [ft [v [F1 [_ [F2 _]]]]]]].
  destruct IH as [vs IH]; [intros f2 s2 H2; apply HA; right; auto|]. exists ((fld, v) :: vs). constructor; [|auto]. unfold reading. cbn [fst snd]. split; [auto|]. split; [auto|]. split; [auto|]. eauto.
Qed.

(** The words after a part: a head, which is no field of the part. *)
Definition next_ok (p : part) (rest : list string) : Prop :=
  match rest with
  | [] => True
  | w :: _ => In w next_words /\ (part_name p = "profinet-rtc"%string -> w <> "data"%string)
  end.

Lemma head_ends : forall t w, head_ok t w = true -> (h_name t = "profinet-rtc"%string -> w <> "data"%string) ->
  String.eqb w "help" = false /\ is_ign w = false /\ find_field t w = None.
Proof.
  intros t w H Hd. unfold head_ok in H. rewrite andb_true_iff in H. destruct H as [H1 H2]. apply negb_true_iff in H1. apply keyword_facts in H1. destruct H1 as [H1 H3].
  split; [apply String.eqb_neq; auto|]. split; [apply is_ign_false; auto|]. rewrite orb_true_iff, andb_true_iff, !String.eqb_eq in H2. destruct H2 as [H2|[H2 H4]]; [|exfalso; apply (Hd H2 H4)].
  apply negb_true_iff in H2. unfold find_field. destruct (find _ (h_fields t)) as [f|] eqn:Ef; [|auto]. apply find_some in Ef. destruct Ef as [E1 E2]. apply String.eqb_eq in E2. exfalso.
  assert (existsb (fun f => String.eqb (f_name f) w) (h_fields t) = true) by (apply existsb_exists; exists f; split; auto; apply String.eqb_eq; auto). congruence.
Qed.

Lemma hpf_end : forall t h rest fuel i pad mask p, (length rest < fuel)%nat -> inv t h -> next_ok p rest -> (forall w, In w next_words -> head_ok t w = true) -> h_name t = part_name p ->
  hpf_loop fuel rest i h pad mask = Ret (POk i h pad mask).
Proof.
  intros t h rest fuel i pad mask p Hf I HN HH Ep. destruct fuel as [|fuel]; [lia|]. destruct rest as [|w r]; [reflexivity|]. destruct HN as [N1 N2].
  destruct (head_ends t w (HH w N1)) as [E1 [E2 E3]]; [intros E; apply N2; congruence|]. cbn [hpf_loop]. rewrite E1, E2. cbn [andb]. rewrite (inv_find_none _ _ _ I E3). reflexivity.
Qed.

Lemma parse_header : forall n asg m rest, form (Header n asg) m -> next_ok (Header n asg) rest ->
  (forall fld s, In (fld, s) asg -> ~ In fld ["-"; "ignore"]%string /\ exists off w x, place m fld = Some (off, w) /\ stands_for n fld w s x) ->
  exists t h, find_tmpl n = Some t /\ parse_hdr (words_of asg ++ rest) t 0 false = Ret (POk (2 * length asg) h 0 false) /\ made_header n asg m h.
Proof.
  intros n asg m rest HF HN HA. destruct (form_row _ _ _ HF) as [r [Hr HS]]. destruct (row_found _ _ Hr) as [t HR]. destruct (well_reading n asg m r t HF HR HS asg HA) as [vs HV].
  destruct (read_all asg vs t t (S (length asg + length rest)) 0 rest 0 false (ro_tmpl _ _ _ HR) (ro_pl _ _ _ HR) (inv_init _ (ro_tmpl _ _ _ HR)) HV) as [h [I [Ev [J1 [J2 J3]]]]].
  exists t, h. split; [apply (ro_find _ _ _ HR)|]. split.
  - unfold parse_hdr. rewrite (ro_parser _ _ _ HR). unfold hdr_parse_fields.
    replace (S (length (words_of asg ++ rest))) with (length asg + S (length asg + length rest))%nat by (rewrite app_length, words_length; lia). rewrite J3.
    rewrite (hpf_end t h rest _ _ _ _ (Header n asg)); [f_equal; f_equal; lia|lia|auto|auto|apply (ro_heads _ _ _ HR)|apply (ro_name _ _ _ HR)].
  - exists r, t, vs. split; [auto|]. split; [auto|]. split; [auto|]. split; [auto|]. split; [auto|]. split; [auto|]. intros H. apply J2. auto.
Qed.

Lemma not_piece : forall p rest, next_ok p rest -> rest = [] \/ exists w r, rest = w :: r /\ not_piece_word w.
Proof.
  intros p [|w r] H; [auto|]. right. exists w, r. split; [auto|]. destruct H as [H _]. pose proof heads_ok as K. rewrite forallb_forall in K. specialize (K w H). cbv beta in K. apply negb_true_iff in K.
  intros Hin. assert (existsb (String.eqb w) ["help"; "hex"; "ascii"; "ascii0"; "repeat"; "pattern"]%string = true); [|congruence].
  apply existsb_exists. exists w. split; [|apply String.eqb_refl]. cbn [In] in Hin |- *. tauto.
Qed.

Lemma parse_data : forall ps rest mk, ps <> [] -> Forall piece_ok ps -> next_ok (Data ps) rest -> Z.of_nat (length (payload ps)) <= size_limit ->
  parse_hdr (flat_map piece_words ps ++ rest) HDR_PAYLOAD 0 mk = Ret (POk (length (flat_map piece_words ps)) (raw (payload ps)) 0 mk).
Proof.
  intros ps rest mk Hne Hok HN Hl. unfold parse_hdr. replace (h_parser HDR_PAYLOAD) with HP_payload by (vm_compute; reflexivity). unfold payload_parser.
  rewrite (pieces_parsed ps rest Hne Hok (not_piece _ _ HN)). fold (payload ps). cbn [bind].
  assert (Hw : (0 < length (flat_map piece_words ps))%nat). { destruct ps as [|p ps]; [congruence|]. cbn [flat_map]. rewrite app_length. pose proof (piece_words_len p). lia. }
  set (k := length (flat_map piece_words ps)) in *. clearbody k. destruct (Z.ltb_spec (Z.of_nat k) 0); [lia|]. destruct (Z.eqb_spec (Z.of_nat k) 0); [lia|].
  unfold zlen at 1. destruct (Z.ltb_spec size_limit (Z.of_nat (length (payload ps)))); [lia|]. rewrite Nat2Z.id. reflexivity.
Qed.

Lemma multi_end : forall t h rest fuel i p mk, In t [HDR_COAP_OPTIONS; HDR_COAP_PARMS] -> map f_name (h_fields h) = map f_name (h_fields t) -> (length rest < fuel)%nat -> next_ok p rest ->
  hpf_loop fuel rest i h 0 mk = Ret (POk i h 0 mk).
Proof.
  intros t h rest fuel i p mk Ht Hf Hl HN. destruct fuel as [|fuel]; [lia|]. destruct rest as [|w r]; [reflexivity|]. destruct HN as [N1 _].
  pose proof heads_multi as K. rewrite forallb_forall in K. specialize (K w N1). cbv beta in K. rewrite andb_true_iff in K.
  assert (K' : head_ok t w = true) by (destruct Ht as [<-|[<-|[]]]; apply K).
  destruct (head_ends t w K') as [E1 [E2 E3]]; [destruct Ht as [<-|[<-|[]]]; discriminate|]. cbn [hpf_loop]. rewrite E1, E2. cbn [andb].
  assert (E4 : find_field h w = None); [|rewrite E4; reflexivity]. clear - Hf E3. unfold find_field in *. revert Hf E3. generalize (h_fields h), (h_fields t). induction l as [|x l IH]; intros [|y l2] H E; try discriminate; [reflexivity|].
  cbn [map] in H. pose proof (f_equal (@List.tl _) H) as H2. cbn [List.tl] in H2. pose proof (f_equal (@List.hd _ ""%string) H) as H1. cbn [List.hd] in H1. cbn [find] in *. rewrite H1. destruct (String.eqb w (f_name y)); [discriminate|]. eapply IH; eauto.
Qed.

Lemma parse_option : forall num x ps rest mk, number num x -> 0 <= x < 65536 -> ps <> [] -> Forall piece_ok ps -> Z.of_nat (length (payload ps)) < 65536 -> next_ok (CoapOption num ps) rest ->
  parse_hdr ("num" :: num :: "val" :: flat_map piece_words ps ++ rest)%string HDR_COAP_OPTIONS 0 mk =
  Ret (POk (3 + length (flat_map piece_words ps)) (opt_header x (option_data (payload ps))) 0 mk).
Proof.
  intros num x ps rest mk Hn Hx Hne Hok Hl HN.
  assert (Hd64 : 0 <= x < 2 ^ 64) by (change (2 ^ 64) with 18446744073709551616; lia).
  destruct (number_word _ _ Hn Hd64) as [N1 N2]. pose proof (number_bytes _ _ 2 Hn Hd64 ltac:(lia)) as N3.
  pose proof (pieces_parsed ps rest Hne Hok (not_piece _ _ HN)) as HP. fold (payload ps) in HP. set (v := payload ps) in *.
  unfold parse_hdr. change (h_parser HDR_COAP_OPTIONS) with HP_fields. cbv iota. unfold hdr_parse_fields. cbn [length].
  rewrite (hpf_step _ "num" num _ 0 HDR_COAP_OPTIONS 0 mk (MkField "num" false 16 0 None None FP_default) HDR_COAP_OPTIONS (Some (be_bytes 2 x)));
    [|reflexivity|reflexivity|reflexivity|auto|auto|reflexivity|cbn [run_parser f_parser f_width]; change (BIT_TO_BYTE 16) with 2; rewrite N3; reflexivity].
  change (fmod "num" (set_skip false) (fmod "num" (set_val (Some (be_bytes 2 x))) HDR_COAP_OPTIONS)) with (opt_hdr false false 0 2 (Some (be_bytes 2 x)) None).
  set (pw := flat_map piece_words ps) in *. set (cnt := Z.of_nat (length pw)) in *.
  assert (Hc : 2 <= cnt). { unfold cnt, pw. destruct ps as [|p ps']; [congruence|]. cbn [flat_map]. rewrite app_length. pose proof (piece_words_len p). lia. }
  assert (EW : exists w r, pw ++ rest = w :: r /\ is_ign w = false /\ String.eqb w "help" = false).
  { unfold pw. destruct ps as [|p ps']; [congruence|]. destruct (piece_first p ps') as [w [r [E [W1 W2]]]]. rewrite E. exists w, (r ++ rest)%list. auto. }
  destruct EW as [w [r [EW [W1 W2]]]].
  assert (Hz : cnt <= zlen (w :: r)) by (rewrite <- EW; unfold cnt, zlen; rewrite app_length; lia).
  assert (HR : run_multi FP_coap_opt_val (fmod "val" (set_val None) (opt_hdr false false 0 2 (Some (be_bytes 2 x)) None)) "val" (w :: r) =
     Ret (opt_header x (option_data v), cnt)).
  { cbn [run_multi]. unfold coap_parse_option_value, field_parse_multi_var_byte. rewrite <- EW, HP. cbn [bind]. rewrite EW.
    replace ((1 <? cnt) && (cnt <=? zlen (w :: r))) with true by lia.
    change (h_size (fmod "val" (set_val None) (opt_hdr false false 0 2 (Some (be_bytes 2 x)) None))) with 2.
    assert (Hv : 0 <= zlen v < 65536) by (unfold zlen; lia).
    replace (size_limit <? 2 + zlen v) with false by (unfold size_limit; lia). cbn [bind].
    replace ((1 <? cnt) && (cnt <=? zlen (w :: r))) with true by lia.
    replace (u32 (2 + zlen v)) with (2 + zlen v) by (unfold u32; lia).
    unfold opt_header, option_data. fold v. generalize (be_bytes 2 x) as nm. intros nm.
    cbn -[Z.mul Z.sub forallb zlen u32 Z.add]. destruct (forallb (Z.eqb 0) v).
    - replace (u32 (2 + zlen v - zlen v)) with 2 by (unfold u32; lia). reflexivity.
    - reflexivity. }
  rewrite EW. rewrite (hpf_multi _ "val" w r _ _ _ _ (MkField "val" false 0 16 None None FP_coap_opt_val) (opt_header x (option_data v)) cnt); [|reflexivity|reflexivity|reflexivity|auto|auto|reflexivity|exact HR|lia].
  rewrite <- EW. unfold cnt. rewrite Nat2Z.id, skipn_app, skipn_all, Nat.sub_diag. cbn [skipn app].
  rewrite (multi_end HDR_COAP_OPTIONS _ rest _ _ (CoapOption num ps)); [|left; auto|reflexivity|rewrite app_length; lia|auto].
  f_equal.
Qed.

Lemma parse_parms : forall ps rest mk, ps <> [] -> Forall piece_ok ps -> Z.of_nat (length (payload ps)) <= size_limit -> next_ok (CoapPayload ps) rest ->
  parse_hdr ("par" :: flat_map piece_words ps ++ rest)%string HDR_COAP_PARMS 0 mk =
  Ret (POk (1 + length (flat_map piece_words ps)) (parms_header (payload ps)) 0 mk).
Proof.
  intros ps rest mk Hne Hok Hl HN.
  pose proof (pieces_parsed ps rest Hne Hok (not_piece _ _ HN)) as HP. fold (payload ps) in HP. set (v := payload ps) in *.
  unfold parse_hdr. change (h_parser HDR_COAP_PARMS) with HP_fields. cbv iota. unfold hdr_parse_fields. cbn [length].
  set (pw := flat_map piece_words ps) in *. set (cnt := Z.of_nat (length pw)) in *.
  assert (Hc : 2 <= cnt). { unfold cnt, pw. destruct ps as [|p ps']; [congruence|]. cbn [flat_map]. rewrite app_length. pose proof (piece_words_len p). lia. }
  assert (EW : exists w r, pw ++ rest = w :: r /\ is_ign w = false /\ String.eqb w "help" = false).
  { unfold pw. destruct ps as [|p ps']; [congruence|]. destruct (piece_first p ps') as [w [r [E [W1 W2]]]]. rewrite E. exists w, (r ++ rest)%list. auto. }
  destruct EW as [w [r [EW [W1 W2]]]].
  assert (Hz : cnt <= zlen (w :: r)) by (rewrite <- EW; unfold cnt, zlen; rewrite app_length; lia).
  assert (HR : run_multi FP_coap_parms (fmod "par" (set_val None) HDR_COAP_PARMS) "par" (w :: r) = Ret (parms_header v, cnt)).
  { cbn [run_multi]. unfold coap_parse_parms. rewrite <- EW, HP. cbn [bind]. rewrite EW.
    replace ((1 <? cnt) && (cnt <=? zlen (w :: r))) with true by lia.
    replace (size_limit <? zlen v) with false by (unfold zlen; lia). reflexivity. }
  rewrite EW. rewrite (hpf_multi _ "par" w r _ _ _ _ (MkField "par" false 0 0 None None FP_coap_parms) (parms_header v) cnt); [|reflexivity|reflexivity|reflexivity|auto|auto|reflexivity|exact HR|lia].
  rewrite <- EW. unfold cnt. rewrite Nat2Z.id, skipn_app, skipn_all, Nat.sub_diag. cbn [skipn app].
  rewrite (multi_end HDR_COAP_PARMS _ rest _ _ (CoapPayload ps)); [|right; left; auto|reflexivity|rewrite app_length; lia|auto].
  f_equal.
Qed.

(** *** The whole line *)
Lemma named_row : forall n m, In (n, m) rows -> In n heads.
Proof. intros n m H. right. right. right. apply (in_map fst) in H. exact H. Qed.

Lemma part_head : forall p m, form p m -> In (part_name p) heads.
Proof.
  intros p m H. destruct p as [n asg|ps|num ps|ps]; cbn [part_name]; [|left; auto|right; left; auto|right; right; left; auto].
  destruct (form_row _ _ _ H) as [r [Hr _]]. eapply named_row; eauto.
Qed.

Lemma part_starts : forall p, exists r, part_words p = part_name p :: r.
Proof. intros [n asg|ps|num ps|ps]; eexists; reflexivity. Qed.

Lemma raw_form : forall p m, form p m -> (forall n asg, p <> Header n asg) -> exists d, raw_bytes p d /\ m = [("-"%string, 8 * Z.of_nat (length d))].
Proof. intros p m H Hp. inversion H; subst; try (exfalso; eapply Hp; reflexivity). eauto. Qed.

Definition small (it : item) : Prop := bits (snd it) <= 8 * 130000.

Lemma parse_part : forall p m rest, well_put (p, m) -> small (p, m) -> next_ok p rest ->
  exists t h r, find_tmpl (part_name p) = Some t /\ part_words p = part_name p :: r /\ parse_hdr (r ++ rest) t 0 false = Ret (POk (length r) h 0 false) /\ made (p, m) h.
Proof.
  intros p m rest [HF HW] HS HN. unfold small in HS. cbn [fst snd] in *. destruct p as [n asg|ps|num ps|ps].
  - destruct (parse_header n asg m rest HF HN HW) as [t [h [H1 [H2 H3]]]]. exists t, h, (words_of asg). split; [auto|]. split; [reflexivity|]. split; [|exact H3]. rewrite words_length. exact H2.
  - destruct HW as [W1 W2]. destruct (raw_form _ _ HF) as [d [HR ->]]; [discriminate|]. inversion HR; subst d ps0. unfold bits in HS. cbn [map snd fold_right] in HS.
    exists HDR_PAYLOAD, (raw (payload ps)), (flat_map piece_words ps). split; [vm_compute; reflexivity|]. split; [reflexivity|]. split; [|reflexivity]. apply parse_data; auto. unfold size_limit. lia.
  - destruct HW as [W1 [W2 W3]]. destruct (raw_form _ _ HF) as [d [HR ->]]; [discriminate|]. inversion HR; subst.
    exists HDR_COAP_OPTIONS, (opt_header x (option_data (payload ps))), ("num" :: num :: "val" :: flat_map piece_words ps)%string. split; [vm_compute; reflexivity|]. split; [reflexivity|]. split.
    + cbn [app length]. apply parse_option; auto.
    + exists x. auto.
  - destruct HW as [W1 W2]. destruct (raw_form _ _ HF) as [d [HR ->]]; [discriminate|]. inversion HR; subst. unfold bits in HS. cbn [map snd fold_right length] in HS.
    exists HDR_COAP_PARMS, (parms_header (payload ps)), ("par" :: flat_map piece_words ps)%string. split; [vm_compute; reflexivity|]. split; [reflexivity|]. split; [|reflexivity].
    cbn [app length]. apply parse_parms; auto. unfold size_limit. lia.
Qed.

Lemma heads_help : forallb (fun w => negb (String.eqb w "help")) heads = true.
Proof. vm_compute. reflexivity. Qed.

Lemma spoken_loop : forall its fuel i stk, Forall well_put its -> Forall small its -> separate its -> (length (spoken its) < fuel)%nat -> zlen stk + Z.of_nat (length (spoken its)) <= 100 ->
  exists hs, Forall2 made its hs /\
    argc_frame_loop fuel (spoken its) i (MkFrame stk 0 false) = Ret (Some (i + length (spoken its), MkFrame (stk ++ hs) 0 false))%nat.
Proof.
  induction its as [|[p m] its IH]; intros fuel i stk HW HSm HSep Hf Hs.
  - exists []. split; [constructor|]. destruct fuel as [|fuel]; [cbn in Hf; lia|]. cbn [spoken flat_map argc_frame_loop length]. rewrite app_nil_r, Nat.add_0_r. reflexivity.
  - assert (HN : next_ok p (spoken its)).
    { destruct its as [|[q m2] its2]; [exact I|]. cbn [spoken flat_map fst]. destruct (part_starts q) as [r Eq]. rewrite Eq. cbn [app next_ok]. split.
      - apply Forall_inv_tail, Forall_inv in HW. destruct HW as [HW _]. apply heads_next. eapply part_head; exact HW.
      - intros Ep Eq2. pose proof (Forall_inv HW) as [HFp _]. pose proof (Forall_inv (Forall_inv_tail HW)) as [HFq _]. cbn [fst snd] in *.
        destruct q as [n2 asg2|ps2|num2 ps2|ps2]; cbn [part_name] in Eq2; try discriminate Eq2.
        + subst n2. destruct (form_row _ _ _ HFq) as [r2 [Hr2 _]]. assert (K : existsb (fun x => String.eqb "data" (fst x)) rows = true) by (apply existsb_exists; exists ("data"%string, r2); split; [auto|apply String.eqb_refl]).
          vm_compute in K. discriminate.
        + destruct p as [n asg|ps|num ps|ps]; cbn [part_name] in Ep; try discriminate Ep. subst n. exact (HSep 0%nat asg m ps2 m2 eq_refl eq_refl). }
    destruct (parse_part p m (spoken its) (Forall_inv HW) (Forall_inv HSm) HN) as [t [h [r [H1 [H2 [H3 H4]]]]]].
    cbn [spoken flat_map fst] in *. fold (spoken its) in *. rewrite H2 in *. cbn [app length] in *. rewrite app_length in *. destruct fuel as [|fuel]; [lia|].
    destruct (IH fuel (i + 1 + length r)%nat (stk ++ [h]) (Forall_inv_tail HW) (Forall_inv_tail HSm)) as [hs [I1 I2]];
      [intros k a m1 ps m2 K1 K2; apply (HSep (S k) a m1 ps m2); auto|lia|rewrite zlen_app, zlen_cons, zlen_nil; lia|].
    exists (h :: hs). split; [constructor; auto|]. cbn [argc_frame_loop].
    assert (Eh : String.eqb (part_name p) "help" = false).
    { pose proof heads_help as K. rewrite forallb_forall in K. apply negb_true_iff, K. destruct (Forall_inv HW) as [HFp _]. eapply part_head; exact HFp. }
    rewrite Eh, H1. cbn [fr_stack fr_padding fr_has_mask]. unfold FRAME_STACK_MAX. destruct (Z.leb_spec 100 (zlen stk)); [lia|].
    rewrite H3. cbn [bind]. rewrite skipn_app, skipn_all, Nat.sub_diag. cbn [skipn app]. rewrite I2, <- app_assoc. cbn [app].
    match goal with |- Ret (Some (?a, _)) = Ret (Some (?b, _)) => replace b with a by lia end. reflexivity.
Qed.

Lemma spoken_accepted : forall its, Forall well_put its -> Forall small its -> separate its -> (length (spoken its) <= 100)%nat ->
  exists hs, Forall2 made its hs /\ argc_frame (spoken its) = Ret (Some (length (spoken its), MkFrame hs 0 false)).
Proof.
  intros its HW HS HSep Hl. destruct (spoken_loop its (S (length (spoken its))) 0 [] HW HS HSep) as [hs [H1 H2]]; [lia|rewrite zlen_nil; lia|].
  exists hs. split; [auto|]. unfold argc_frame, FRAME_STACK_MAX, zlen. destruct (Z.ltb_spec 100 (Z.of_nat (length (spoken its)))); [lia|]. exact H2.
Qed.

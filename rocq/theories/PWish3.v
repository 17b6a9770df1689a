(** Expectations with ignored fields: the bits that are compared (C83). *)

From Verif Require Import PTextIp PTextNum PTextHex PTextMac PTextAddr Frame PSer SpecParse PParse PMatch SpecFrame PFrame PInv PStep PArgs PSoft PFill PGroup PAll PSafe PAssign PField SpecOrigin POrigin PImage PSum PEmit SpecFill PCheck PCheck2 PLen PKeep PTwice PCoap PSegs PWords SpecLayout PLayout Cmd Exec SpecExec PCmd PPair PExec PReplay SpecWhole PWhole SpecExact PExact SpecForm PForm PForm2 PForm3 PForm4 PForm5 PForm6 PForm7 PMask PIgnore SpecWish PWish PWish2.

(** *** Fields under the names of a form: a field behind another one of the same name has
    none *)
Fixpoint called {A} (seen : list string) (l : list (string * A)) : list (string * A) :=
  match l with
  | [] => []
  | x :: r => ((if existsb (String.eqb (fst x)) seen then "-"%string else fst x), snd x) :: called (fst x :: seen) r
  end.

Definition tags (fs : list field) : list (string * (Z * Z)) := called [] (map (fun f => (f_name f, lay f)) fs).

Lemma tags_same : forall a c, map lay a = map lay c -> names a = names c -> tags a = tags c.
Proof.
  intros a c H N. unfold tags. f_equal. revert c H N. induction a as [|x a IH]; intros [|y c] H N; try discriminate; [reflexivity|]. unfold names in *. cbn [map] in *. f_equal; [congruence|]. apply IH; congruence.
Qed.

(** The fields of nonzero width are those of the form. *)
Definition fit (l : list (string * (Z * Z))) (m : format) : Prop :=
  (forall c o w, In (c, (o, w)) l -> w <> 0 -> place m c = Some (o, w)) /\ (forall c o w, place m c = Some (o, w) -> In (c, (o, w)) l).

Definition fitb (l : list (string * (Z * Z))) (m : format) : bool :=
  forallb (fun p => (snd (snd p) =? 0) || match place m (fst p) with Some q => (fst q =? fst (snd p)) && (snd q =? snd (snd p)) | None => false end) l &&
  forallb (fun q => match place m (fst q) with Some p => existsb (fun x => String.eqb (fst x) (fst q) && (fst (snd x) =? fst p) && (snd (snd x) =? snd p)) l | None => false end) m.

Lemma fitb_spec : forall l m, fitb l m = true -> fit l m.
Proof.
  intros l m H. unfold fitb in H. rewrite andb_true_iff, !forallb_forall in H. destruct H as [H1 H2]. split.
  - intros c o w Hin Hw. specialize (H1 _ Hin). cbn [fst snd] in H1. destruct (Z.eqb_spec w 0); [lia|]. cbn [orb] in H1. destruct (place m c) as [[o' w']|]; [|discriminate]. cbn [fst snd] in H1. f_equal. f_equal; lia.
  - intros c o w HP. specialize (H2 _ (place_mem _ _ _ _ _ HP)). cbn [fst] in H2. rewrite HP in H2. apply existsb_exists in H2. destruct H2 as [[c' [o' w']] [K1 K2]]. cbn [fst snd] in K2. rewrite !andb_true_iff, String.eqb_eq in K2.
    destruct K2 as [[-> K2] K3]. replace o with o' by lia. replace w with w' by lia. exact K1.
Qed.

Lemma table_fits : forallb (fun p => match find_tmpl (fst p) with Some t => fitb (tags (h_fields t)) (snd p) | None => false end) formats = true.
Proof. vm_compute. reflexivity. Qed.

Lemma called_nodup : forall A (l : list (string * A)) seen, NoDup (map fst l) -> (forall x, In x (map fst l) -> ~ In x seen) -> called seen l = l.
Proof.
  intros A. induction l as [|[n a] r IH]; intros seen ND HS; [reflexivity|]. cbn [called map fst snd] in *. apply NoDup_cons_iff in ND. destruct ND as [N1 N2].
  rewrite IH; auto.
  - destruct (existsb (String.eqb n) seen) eqn:E; [|reflexivity]. apply existsb_exists in E. destruct E as [y [E1 E2]]. apply String.eqb_eq in E2. subst y. exfalso. apply (HS n); auto. left; auto.
  - intros x Hx [K|K]; [subst x; tauto|]. apply (HS x); auto. right; auto.
Qed.

Lemma seq_fit : forall fs p, seqok (map lay fs) p -> NoDup (names fs) -> forall c o w, In (c, (o, w)) (map (fun f => (f_name f, lay f)) fs) <-> place_from p (fmt fs) c = Some (o, w).
Proof.
  induction fs as [|f r IH]; intros p HS ND c o w; [split; [intros []|discriminate]|]. cbn [map fmt place_from seqok names] in *. fold (fmt r). unfold lay at 1 in HS. destruct HS as [S1 [S2 S3]].
  apply NoDup_cons_iff in ND. destruct ND as [N1 N2]. unfold lay at 1. rewrite S1. split.
  - intros [E|Hin].
    + apply pair_inj in E. destruct E as [<- E]. apply pair_inj in E. destruct E as [<- <-]. rewrite String.eqb_refl. reflexivity.
    + destruct (String.eqb_spec (f_name f) c) as [<-|Hne].
      * exfalso. apply N1. apply in_map_iff in Hin. destruct Hin as [g [E Hg]]. apply pair_inj in E. destruct E as [<- _]. apply in_map. exact Hg.
      * apply IH; auto.
  - destruct (String.eqb_spec (f_name f) c) as [<-|Hne]; [intros E; apply some_inj, pair_inj in E; destruct E as [<- <-]; left; reflexivity|]. intros HP. right. eapply IH; eauto.
Qed.

Lemma seq_fits : forall fs, seqok (map lay fs) 0 -> NoDup (names fs) -> fit (tags fs) (fmt fs).
Proof.
  intros fs HS ND. unfold tags. rewrite called_nodup; [|rewrite map_map; exact ND|intros x _ []]. pose proof (seq_fit fs 0 HS ND) as H. split.
  - intros c o w Hin _. apply H. exact Hin.
  - intros c o w HP. apply H. exact HP.
Qed.

(** *** The layout of an emitted header *)
Lemma table_no_var : forall n m asg r t, format_named n m -> (n = "coap"%string -> gives asg "token" = false) -> row_of n r t -> no_var t asg.
Proof.
  intros n m asg r t Hn Hc HR fld s ft Hin Hf. destruct (is_var (f_parser ft)) eqn:Ev; [|reflexivity]. destruct (find_field_in _ _ _ Hf) as [F1 F2]. destruct (row_field _ _ _ _ HR F1) as [Ho _].
  specialize (Ho Ev). rewrite F2 in Ho. apply odd_in in Ho. destruct Ho as [Ho|[Ho|[]]]; apply pair_inj in Ho; destruct Ho as [<- <-].
  - rewrite (in_gives _ _ _ Hin) in Hc. specialize (Hc eq_refl). discriminate.
  - exfalso. clear - Hn. unfold format_named in Hn. assert (K : existsb (fun p => String.eqb "profinet-rtc" (fst p)) formats = true) by (apply existsb_exists; exists ("profinet-rtc"%string, m); split; [auto|reflexivity]). vm_compute in K. discriminate.
Qed.

Lemma keeps_skips : forall h h', keeps_given h h' -> skips h' = skips h.
Proof.
  intros h h' [_ H]. unfold skips. induction H as [|x y a c [Hxy _] _ IH]; [reflexivity|]. cbn [map]. rewrite IH, Hxy. reflexivity.
Qed.

Lemma keeps_tags : forall h h', keeps_given h h' -> tags (h_fields h') = tags (h_fields h).
Proof. intros h h' H. destruct (keeps_layout _ _ H) as [K1 [K2 _]]. apply tags_same; auto. Qed.

Lemma template_fill : forall n r t, row_of n r t -> ~ In n ["igmp"; "mld"; "sv"]%string -> value_fill (h_fill t) = true.
Proof.
  intros n r t HR Hn.
  assert (K : forallb (fun p => existsb (String.eqb (fst p)) ["igmp"; "mld"; "sv"]%string || match find_tmpl (fst p) with Some t => value_fill (h_fill t) | None => false end) rows = true) by (vm_compute; reflexivity).
  rewrite forallb_forall in K. specialize (K _ (ro_in _ _ _ HR)). cbn [fst] in K. rewrite (ro_find _ _ _ HR) in K. apply orb_true_iff in K. destruct K as [K|K]; [|exact K].
  exfalso. apply Hn. apply existsb_exists in K. destruct K as [x [K1 K2]]. apply String.eqb_eq in K2. subst x. exact K1.
Qed.

Lemma emitted_fits : forall fr f' b ws k n asg m h h', serialised ws fr f' b -> nth_error (fr_stack fr) k = Some h -> nth_error (fr_stack f') k = Some h' -> regular h = true ->
  form (Header n asg) m -> asg_ok n asg m -> made_header n asg m h -> (n = "sv"%string -> redbox asg = true) ->
  fit (tags (h_fields h')) m /\ skips h' = skips h.
Proof.
  intros fr f' b ws k n asg m h h' HS Hk Hk' Hreg HF HA HM Hsv. destruct (serialised_emitting _ _ _ _ _ _ HS Hk) as [t [x E]].
  assert (x = h') by (pose proof (e_dst _ _ _ _ _ _ _ E); congruence). subst x.
  pose proof HM as [r [t2 [vs [HR [_ [I2 [_ [_ [HV _]]]]]]]]].
  assert (t = t2). { pose proof (e_inv _ _ _ _ _ _ _ E) as I. eapply (emitting_name _ _ _ _ _ _ _ _ _ E); [|apply (ro_find _ _ _ HR)]. rewrite (i_name _ _ I2). apply (ro_name _ _ _ HR). }
  subst t2.
  assert (V : ~ In n ["igmp"; "mld"; "sv"]%string -> fit (tags (h_fields h)) m -> fit (tags (h_fields h')) m /\ skips h' = skips h).
  { intros Hn HT. pose proof (filled_keeps _ _ _ _ _ _ _ E (template_fill _ _ _ HR Hn)) as K. rewrite (keeps_tags _ _ K). split; [exact HT|apply keeps_skips; exact K]. }
  assert (SQ : varhdr t = true -> nodupb (names (h_fields t)) = true -> fmt (h_fields h) = m -> fit (tags (h_fields h)) m).
  { intros Hv Hd <-. destruct (i_var _ _ I2 Hv) as [J1 _]. apply seq_fits; [exact J1|]. rewrite (names_sig _ _ _ (i_sig _ _ I2)). apply nodupb_spec. exact Hd. }
  remember (Header n asg) as p eqn:Ep.
  destruct HF as [n0 a0 m Hn Hc|a0 s d Hg Hd Hl|a0|a0 Hq|a0|a0 s d Hg Hd|a0 Hg|p d Hr]; try (assert (a0 = asg) by congruence; subst a0).
  - assert (n0 = n) by congruence. subst n0. destruct (table_size _ _ _ _ Hn Hc HM) as [_ [_ T]]. apply V; [intros Q; apply T; cbn in *; tauto|].
    destruct (HV (table_no_var _ _ _ _ _ Hn Hc HR)) as [L1 _]. rewrite (tags_same _ _ L1 (names_sig _ _ _ (i_sig _ _ I2))).
    pose proof table_fits as K. rewrite forallb_forall in K. specialize (K _ Hn). cbn [fst snd] in K. rewrite (ro_find _ _ _ HR) in K. apply fitb_spec. exact K.
  - assert (n = "coap"%string) by congruence. subst n. pose proof (ro_find _ _ _ HR) as Et. vm_compute in Et. apply some_inj in Et. apply V; [intros Q; cbn in Q; intuition discriminate|].
    destruct (token_fmt _ _ _ _ _ HM Hg Hd Hl) as [T1 _]. apply SQ; [rewrite <- Et; reflexivity|rewrite <- Et; reflexivity|exact T1].
  - assert (n = "igmp"%string) by congruence. subst n. pose proof (ro_find _ _ _ HR) as Et. assert (t = HDR_IGMP) by (vm_compute in Et; vm_compute; congruence). subst t.
    destruct (igmp_keeps _ _ _ _ _ _ E) as [s [v [Eh HK]]]. rewrite (keeps_tags _ _ HK), (keeps_skips _ _ HK). split; [|rewrite Eh; reflexivity].
    unfold is_query, is_report. rewrite !(made_any _ _ _ _ _ HM). fold (queries asg). fold (reports asg). apply fitb_spec. destruct (queries asg), (reports asg); reflexivity.
  - assert (n = "mld"%string) by congruence. subst n. pose proof (ro_find _ _ _ HR) as Et. assert (t = HDR_MLD) by (vm_compute in Et; vm_compute; congruence). subst t.
    destruct (mld_keeps _ _ _ _ _ _ Hreg E) as [s [v [Eh HK]]]. rewrite (keeps_tags _ _ HK), (keeps_skips _ _ HK). split; [|rewrite Eh; reflexivity].
    unfold is_query, is_report. rewrite !(made_any _ _ _ _ _ HM). fold (queries asg). fold (reports asg). apply fitb_spec. destruct (queries asg), (reports asg); try discriminate Hq; reflexivity.
  - assert (n = "sv"%string) by congruence. subst n. pose proof (ro_find _ _ _ HR) as Et. assert (t = HDR_SV) by (vm_compute in Et; vm_compute; congruence). subst t.
    destruct (sv_eff _ _ _ _ _ _ E) as [s [v [Eh HO]]]. unfold tlv2_fields in HO. rewrite (made_any _ _ _ _ _ HM) in HO. fold (redbox asg) in HO. rewrite (Hsv eq_refl) in HO |- *. subst h'. split; [|reflexivity].
    rewrite Eh. apply fitb_spec. reflexivity.
  - assert (n = "profinet-rtc"%string) by congruence. subst n. pose proof (ro_find _ _ _ HR) as Et. vm_compute in Et. apply some_inj in Et. apply V; [intros Q; cbn in Q; intuition discriminate|].
    destruct (data_fmt _ _ _ _ _ HM HA Hg Hd) as [T1 _]. apply SQ; [rewrite <- Et; reflexivity|rewrite <- Et; reflexivity|exact T1].
  - assert (n = "profinet-rtc"%string) by congruence. subst n. pose proof (ro_find _ _ _ HR) as Et. vm_compute in Et. apply some_inj in Et. apply V; [intros Q; cbn in Q; intuition discriminate|].
    destruct (no_data_fmt _ _ _ HM Hg) as [T1 _]. apply SQ; [rewrite <- Et; reflexivity|rewrite <- Et; reflexivity|exact T1].
  - subst p. inversion Hr.
Qed.

(** *** Which fields are ignored *)
Definition tagged (fs : list field) : list (string * ((Z * Z) * bool)) := called [] (map (fun f => (f_name f, (lay f, f_skip f))) fs).

Lemma called_map : forall A B (g : A -> B) l seen, map (fun x => (fst x, g (snd x))) (called seen l) = called seen (map (fun x => (fst x, g (snd x))) l).
Proof. intros A B g. induction l as [|[n a] r IH]; intros seen; [reflexivity|]. cbn [called map fst snd]. rewrite IH. reflexivity. Qed.

Lemma called_over : forall A B (mk : A -> string) (g : string -> B -> B) d l seen c s, (forall b, g "-"%string b = b) ->
  In (c, s) (called seen (over g seen (map (fun f => (mk f, d)) l))) -> s = g c d.
Proof.
  intros A B mk g d. induction l as [|f r IH]; intros seen c s Hd H; [destruct H|]. cbn [map over called fst snd] in H. destruct H as [H|H]; [|eapply IH; eauto].
  apply pair_inj in H. destruct H as [<- <-]. destruct (existsb (String.eqb (mk f)) seen); [symmetry; apply Hd|reflexivity].
Qed.

Lemma called_in : forall A (l : list (string * A)) seen a, (exists c, In (c, a) (called seen l)) <-> exists n, In (n, a) l.
Proof.
  intros A. induction l as [|[n x] r IH]; intros seen a; cbn [called fst snd]; [split; intros [c []]|]. split.
  - intros [c [H|H]]; [apply pair_inj in H; destruct H as [_ <-]; exists n; left; auto|]. destruct (proj1 (IH (n :: seen) a)) as [n' Hn]; [exists c; auto|]. exists n'. right; auto.
  - intros [c [H|H]]; [apply pair_inj in H; destruct H as [_ <-]; eexists; left; reflexivity|]. destruct (proj2 (IH (n :: seen) a)) as [n' Hn]; [exists c; auto|]. exists n'. right; auto.
Qed.

Lemma tagged_tags : forall fs, map (fun x => (fst x, fst (snd x))) (tagged fs) = tags fs.
Proof. intros fs. unfold tagged, tags. rewrite (called_map _ _ fst), map_map. reflexivity. Qed.

Lemma tagged_skip : forall h asg all, skips h = over (by_word asg) [] (map (fun f => (f_name f, is_all all)) (h_fields h)) -> last_given asg "-" = None ->
  forall c l s, In (c, (l, s)) (tagged (h_fields h)) -> s = left_out asg all c.
Proof.
  intros h asg all HS HD c l s Hin. assert (K : In (c, s) (called [] (skips h))).
  { unfold skips. replace (map (fun f => (f_name f, f_skip f)) (h_fields h)) with (map (fun x : string * ((Z * Z) * bool) => (fst x, snd (snd x))) (map (fun f => (f_name f, (lay f, f_skip f))) (h_fields h))) by (rewrite map_map; reflexivity).
    rewrite <- (called_map _ _ snd). apply in_map_iff. exists (c, (l, s)). split; [reflexivity|exact Hin]. }
  rewrite HS in K. apply (called_over _ _ f_name (by_word asg)) in K; [exact K|]. intros b. unfold by_word. rewrite HD. reflexivity.
Qed.

Lemma tagged_in : forall fs l s, (exists c, In (c, (l, s)) (tagged fs)) <-> exists f, In f fs /\ lay f = l /\ f_skip f = s.
Proof.
  intros fs l s. unfold tagged. rewrite called_in. split.
  - intros [n H]. apply in_map_iff in H. destruct H as [f [E Hf]]. apply pair_inj in E. destruct E as [_ E]. apply pair_inj in E. exists f. tauto.
  - intros [f [H1 [<- <-]]]. exists (f_name f). apply in_map_iff. exists f. auto.
Qed.

Lemma table_pos : forallb (fun p => forallb (fun q => 0 <? snd q) (snd p)) formats = true.
Proof. vm_compute. reflexivity. Qed.

Lemma form_pos : forall n asg m, form (Header n asg) m -> forallb (fun q => 0 <? snd q) m = true.
Proof.
  intros n asg m HF. remember (Header n asg) as p eqn:Ep.
  destruct HF as [n0 a0 m Hn Hc|a0 s d Hg Hd Hl|a0|a0 Hq|a0|a0 s d Hg Hd|a0 Hg|p d Hr].
  - pose proof table_pos as K. rewrite forallb_forall in K. apply (K _ Hn).
  - cbn [coap_form forallb snd]. rewrite !andb_true_iff. repeat split; try reflexivity. lia.
  - destruct (reports a0), (queries a0); reflexivity.
  - destruct (reports a0), (queries a0); reflexivity.
  - destruct (redbox a0); reflexivity.
  - cbn [rtc_form forallb snd]. rewrite !andb_true_iff. repeat split; try reflexivity. lia.
  - reflexivity.
  - subst p. inversion Hr.
Qed.

Lemma place_apart : forall m p a c o w o' w' i, forallb (fun q => 0 <? snd q) m = true -> place_from p m a = Some (o, w) -> place_from p m c = Some (o', w') ->
  o <= i < o + w -> o' <= i < o' + w' -> a = c.
Proof.
  induction m as [|[n x] m IH]; intros p a c o w o' w' i HP Ha Hc Hi Hi'; [discriminate|]. cbn [place_from forallb snd] in *. apply andb_true_iff in HP. destruct HP as [P1 P2].
  destruct (String.eqb_spec n a) as [Ea|Ea], (String.eqb_spec n c) as [Ec|Ec]; [congruence| | |eapply IH; eauto].
  - apply some_inj, pair_inj in Ha. pose proof (place_inside m _ _ _ _ P2 Hc). lia.
  - apply some_inj, pair_inj in Hc. pose proof (place_inside m _ _ _ _ P2 Ha). lia.
Qed.

Lemma header_counts : forall n asg0 asg m all h' j, form (Header n asg0) m -> fit (tags (h_fields h')) m -> skips h' = over (by_word asg) [] (map (fun f => (f_name f, is_all all)) (h_fields h')) ->
  last_given asg "-" = None -> 0 <= j < bits m ->
  ((exists fl, In fl (h_fields h') /\ f_skip fl = false /\ f_off fl <= j < f_off fl + f_width fl) <->
   ~ exists fld off w, place m fld = Some (off, w) /\ left_out asg all fld = true /\ off <= j < off + w).
Proof.
  intros n asg0 asg m all h' j HF [T1 T2] HS HD Hj. pose proof (tagged_skip _ _ _ HS HD) as TS. split.
  - intros [fl [F1 [F2 F3]]] [fld [off [w [P1 [P2 P3]]]]].
    destruct (proj2 (tagged_in (h_fields h') (lay fl) (f_skip fl))) as [c Hc]; [exists fl; auto|].
    pose proof (TS _ _ _ Hc) as Hs. assert (Ht : In (c, lay fl) (tags (h_fields h'))) by (rewrite <- tagged_tags; apply in_map_iff; exists (c, (lay fl, f_skip fl)); auto).
    unfold lay in Ht. apply T1 in Ht; [|lia]. assert (fld = c) by (eapply (place_apart m 0); [eapply form_pos; eauto|exact P1|exact Ht|exact P3|exact F3]). congruence.
  - intros H. destruct (cp_all _ _ (form_covers _ _ _ HF) j Hj) as [fld [off [w [P1 P2]]]]. pose proof (T2 _ _ _ P1) as Ht. rewrite <- tagged_tags in Ht. apply in_map_iff in Ht. destruct Ht as [[c [l s]] [E Hin]].
    cbn [fst snd] in E. apply pair_inj in E. destruct E as [-> ->]. pose proof (TS _ _ _ Hin) as Hs. destruct (proj1 (tagged_in (h_fields h') (off, w) s)) as [fl [F1 [F2 F3]]]; [exists fld; exact Hin|].
    exists fl. unfold lay in F2. apply pair_inj in F2. destruct F2 as [-> ->]. split; [auto|split; [|auto]]. destruct s; [|auto]. exfalso. apply H. exists fld, off, w. auto.
Qed.

(** *** The frame *)
Lemma wish_nth : forall ws hs, Forall2 made_wish ws hs -> forall k x, nth_error ws k = Some x -> exists h, nth_error hs k = Some h /\ made_wish x h.
Proof. intros ws hs H. induction H as [|it h its hs HM H IH]; intros [|k] x Hk; cbn [nth_error] in Hk; try discriminate; [apply some_inj in Hk; subst x; exists h; auto|apply IH; auto]. Qed.

Lemma start_after : forall hs k h, nth_error hs k = Some h -> start_of hs (S k) = start_of hs k + h_size h.
Proof. intros hs k h H. unfold start_of. rewrite (firstn_S_snoc hdr _ _ _ H). unfold sum_sizes. rewrite map_app, fold_right_app. cbn [map fold_right]. generalize (map h_size (firstn k hs)) as l. induction l as [|x l IH]; cbn [fold_right]; lia. Qed.

Lemma total_mono : forall its, Forall well_put its -> forall j k, (j <= k)%nat -> total (firstn j its) <= total (firstn k its).
Proof.
  intros its HW j k Hjk. destruct (begins_bits (firstn k its) j (well_firstn _ HW k)) as [A1 [_ A2]]. rewrite firstn_firstn, Nat.min_l in A1 by lia. lia.
Qed.

Lemma wish_long : forall ws hs, Forall2 made_wish ws hs -> length ws = length hs.
Proof. intros ws hs H. induction H as [|x h a c _ _ IH]; [reflexivity|]. cbn [length]. f_equal. exact IH. Qed.

Section Wished.
Context (ws : list wish) (hs : list hdr) (HW : Forall well_wished ws) (HM : Forall2 made_wish ws hs) (SV : sv_full ws)
  (f' : frame) (b : list Z) {F : list string} {mk : bool} (HS : serialised F (MkFrame hs 0 mk) f' b).

Local Notation fr := (MkFrame hs 0 mk).
Local Notation its := (map plain ws).

Lemma wish_put : Forall well_put its.
Proof. apply well_plain. exact HW. Qed.

Lemma wish_made : Forall2 made its hs.
Proof. apply made_plain. exact HM. Qed.

Lemma wish_header : forall k n asg m all, nth_error ws k = Some (Header n asg, m, all) -> exists h h', nth_error hs k = Some h /\ nth_error (fr_stack f') k = Some h' /\ made_header n (kept asg) m h /\
  form (Header n (kept asg)) m /\ fit (tags (h_fields h')) m /\ skips h' = skips h /\
  skips h' = over (by_word asg) [] (map (fun f => (f_name f, is_all all)) (h_fields h')) /\ last_given asg "-" = None.
Proof.
  intros k n asg m all Hk. destruct (wish_nth _ _ HM _ _ Hk) as [h [Hh [M1 M2]]]. unfold made in M1. cbn [plain fst snd] in M1, M2.
  destruct (nth_error (fr_stack f') k) as [h'|] eqn:Hk'; [|apply nth_error_None in Hk'; rewrite (serialised_length _ _ _ _ HS) in Hk'; apply nth_error_None in Hk'; cbn [fr_stack] in Hk'; congruence].
  pose proof (proj1 (Forall_forall _ _) HW _ (nth_error_In _ _ Hk)) as [[HF HA] [_ HX]]. cbn [plain fst snd] in HF, HA.
  assert (Hreg : regular h = true). { destruct HS as [_ [R _]]. cbn [fr_stack] in R. rewrite Forall_forall in R. apply R. eapply nth_error_In; eauto. }
  destruct (emitted_fits fr f' b F k n (kept asg) m h h' HS Hh Hk' Hreg HF HA M1) as [E1 E2].
  { intros ->. eapply SV. eapply nth_error_In; eauto. }
  exists h, h'. split; [auto|]. split; [auto|]. split; [exact M1|]. split; [exact HF|]. split; [exact E1|]. split; [exact E2|]. split.
  - rewrite E2, M2. f_equal. assert (K : map (fun x : string * bool => (fst x, is_all all)) (skips h') = map (fun x => (fst x, is_all all)) (skips h)) by (rewrite E2; reflexivity).
    unfold skips in K. rewrite !map_map in K. symmetry. exact K.
  - destruct (last_given asg "-") as [s|] eqn:E; [|reflexivity]. apply last_given_in in E. destruct (HX _ _ E) as [K _]. exfalso. apply K. left. reflexivity.
Qed.

Lemma wish_sv : forallb sv_whole hs = true.
Proof.
  apply forallb_forall. intros h Hh. unfold sv_whole. destruct (String.eqb_spec (h_name h) "sv") as [Es|Es]; [|reflexivity]. cbn [negb orb].
  apply In_nth_error in Hh. destruct Hh as [k Hk]. destruct (nth_made _ _ wish_made _ _ Hk) as [it [H1 H2]]. rewrite nth_error_map in H1. destruct (nth_error ws k) as [x|] eqn:Hx; [|discriminate]. cbn [option_map] in H1. apply some_inj in H1. subst it.
  destruct x as [[p m] all]. destruct p as [n asg|ps|num ps|ps]; cbn [plain] in H2; pose proof (made_named _ _ _ H2) as EN; cbn [part_name] in EN; try (rewrite Es in EN; discriminate EN).
  assert (n = "sv"%string) by congruence. clear EN. subst n. unfold made in H2. cbn [fst snd] in H2. rewrite (made_any _ _ _ _ _ H2). eapply SV. eapply nth_error_In; eauto.
Qed.

Lemma part_bits : forall k p m h', nth_error its k = Some (p, m) -> nth_error (fr_stack f') k = Some h' -> 8 * h_size h' = bits m /\ 8 * start_of (fr_stack f') k = total (firstn k its).
Proof.
  intros k p m h' Hk Hk'. pose proof (start_after _ _ _ Hk') as E. rewrite !(at_part its hs wish_put wish_made f' b HS) in E. pose proof (total_next its k p m Hk) as EN.
  destruct (begins_bits its k wish_put) as [A1 _]. destruct (begins_bits its (S k) wish_put) as [B1 _]. rewrite (at_part its hs wish_put wish_made f' b HS). lia.
Qed.

Lemma raw_counts : forall k p m h h' j, nth_error its k = Some (p, m) -> (forall n asg, p <> Header n asg) -> nth_error hs k = Some h -> nth_error (fr_stack f') k = Some h' -> 0 <= j < 8 * h_size h' ->
  exists fl, In fl (h_fields h') /\ f_skip fl = false /\ f_off fl <= j < f_off fl + f_width fl.
Proof.
  intros k p m h h' j Hk Hp Hh Hk' Hj. destruct (made_nth _ _ wish_made _ _ Hk) as [h0 [H1 H2]]. assert (h0 = h) by congruence. subst h0. clear H1.
  destruct (serialised_emitting _ _ _ _ k h HS Hh) as [t [x E]]. assert (x = h') by (pose proof (e_dst _ _ _ _ _ _ _ E); congruence). subst x.
  pose proof (e_run _ _ _ _ _ _ _ E) as RUN. destruct p as [n asg|ps|num ps|ps]; unfold made in H2; cbn [fst snd] in *; [destruct (Hp n asg); reflexivity| | |].
  - subst h. assert (t = HDR_PAYLOAD) by (eapply emitting_name; [exact E|reflexivity|vm_compute; reflexivity]). subst t.
    change (h_fill HDR_PAYLOAD) with FL_none in RUN. cbn [run_fill] in RUN. apply ret_inj in RUN. apply mid_inj in RUN. subst h'.
    change (h_size (raw (payload ps))) with (zlen (payload ps)) in Hj. eexists. split; [left; reflexivity|]. split; [reflexivity|]. cbn [f_off f_width set_val set_width]. change (0 <= j < 0 + zlen (payload ps) * 8). lia.
  - destruct H2 as [y [Hy [Hy2 ->]]]. assert (t = HDR_COAP_OPTIONS) by (eapply emitting_name; [exact E|reflexivity|vm_compute; reflexivity]). subst t.
    destruct (opt_eff _ _ _ _ _ _ E) as [s0 [s1 [w1 [size [v0 [v1 [Eh [W1 [W2 [W3 H]]]]]]]]]]. set (v := option_data (payload ps)) in *.
    assert (V0 : v0 = Some (be_bytes 2 y)) by (change (Some (be_bytes 2 y)) with (value_of (opt_header y v) "num"); rewrite Eh; reflexivity).
    assert (V1 : v1 = Some v) by (change (Some v) with (value_of (opt_header y v) "val"); rewrite Eh; reflexivity).
    assert (S0 : map f_skip (h_fields (opt_header y v)) = [s0; s1]) by (rewrite Eh; reflexivity). change ([false; false] = [s0; s1]) in S0.
    assert (s0 = false) by congruence. assert (s1 = false) by congruence. subst v0 v1 s0 s1. destruct H as [Eh' [Hw _]]. set (num2 := be_bytes 2 y) in *. destruct (opt_bytes_ok num2 v) as [O1 O2].
    rewrite Eh' in Hj |- *. cbn [opt_filled h_size h_fields] in *. destruct (Z.ltb_spec j (8 * zlen (opt_bytes num2 v))).
    + eexists. split; [left; reflexivity|]. split; [reflexivity|]. cbn [f_off f_width]. lia.
    + eexists. split; [right; left; reflexivity|]. split; [reflexivity|]. cbn [f_off f_width]. lia.
  - subst h. assert (t = HDR_COAP_PARMS) by (eapply emitting_name; [exact E|reflexivity|vm_compute; reflexivity]). subst t.
    change (h_fill HDR_COAP_PARMS) with FL_none in RUN. cbn [run_fill] in RUN. apply ret_inj in RUN. apply mid_inj in RUN. subst h'.
    cbn [parms_header h_size h_fields] in *. eexists. split; [left; reflexivity|]. split; [reflexivity|]. cbn [f_off f_width]. lia.
Qed.

Lemma wish_length : length ws = length (fr_stack f').
Proof. rewrite (serialised_length _ _ _ _ HS). cbn [fr_stack]. apply (wish_long _ _ HM). Qed.

Lemma disregarded_in : forall i, disregarded ws i -> exists k n asg m all fld off w, nth_error ws k = Some (Header n asg, m, all) /\ place m fld = Some (off, w) /\ left_out asg all fld = true /\
  nth_error its k = Some (Header n (kept asg), m) /\ 0 <= off /\ off + w <= bits m /\ total (firstn k its) + off <= i < total (firstn k its) + off + w.
Proof.
  intros i [k [n [asg [m [all [fld [off [w [H1 [H2 [H3 H4]]]]]]]]]]]. exists k, n, asg, m, all, fld, off, w. split; [auto|split; [auto|split; [auto|]]].
  assert (Hk : nth_error its k = Some (Header n (kept asg), m)) by (rewrite nth_error_map, H1; reflexivity). split; [exact Hk|].
  pose proof (proj1 (Forall_forall _ _) wish_put _ (nth_error_In _ _ Hk)) as [HF _]. cbn [fst snd] in HF. pose proof (cp_in _ _ (form_covers _ _ _ HF) _ _ _ H2). split; [lia|]. split; [lia|exact H4].
Qed.

Lemma wish_counts : forall i, 0 <= i -> (counts f' i <-> ~ disregarded ws i).
Proof.
  intros i Hi. pose proof (serialised_mask _ _ _ _ HS wish_sv) as MK. pose proof (whole_size its hs wish_put wish_made f' b HS) as WS. destruct (total_ok its wish_put) as [T1 T2].
  assert (HP : Forall (fun h => 0 <= h_size h) (fr_stack f')) by (eapply Forall_impl; [|exact MK]; intros h [H _]; auto).
  destruct (Z.leb_spec (8 * sum_sizes (fr_stack f')) i) as [Hl|Hl].
  - split; [intros _ HD|intros _; left; auto]. destruct (disregarded_in _ HD) as [k [n [asg [m [all [fld [off [w [H1 [H2 [H3 [H4 [H5 [H6 H7]]]]]]]]]]]]]].
    pose proof (total_next its k _ _ H4) as EN. destruct (begins_bits its (S k) wish_put) as [EA [_ EB]]. lia.
  - destruct (header_of_bit _ _ HP (conj Hi Hl)) as [k [h' [K1 K2]]].
    destruct (nth_error ws k) as [x|] eqn:Hx.
    2: { apply nth_error_None in Hx. rewrite wish_length in Hx. apply nth_error_None in Hx. congruence. }
    assert (Hit : nth_error its k = Some (plain x)) by (rewrite nth_error_map, Hx; reflexivity). destruct (plain x) as [p m] eqn:Ep. destruct (part_bits k p m h' Hit K1) as [B1 B2].
    assert (EN : total (firstn (S k) its) = total (firstn k its) + bits m) by (apply (total_next its k p m Hit)).
    assert (C : counts f' i <-> exists fl, In fl (h_fields h') /\ f_skip fl = false /\ f_off fl <= i - total (firstn k its) < f_off fl + f_width fl).
    { split.
      - intros [H|[k2 [h2 [fl [C1 [C2 [C3 C4]]]]]]]; [lia|].
        assert (E2 : k2 = k).
        { pose proof (proj1 (Forall_forall _ _) MK _ (nth_error_In _ _ C1)) as [W0 W]. destruct (W _ C2) as [_ W1]. specialize (W1 C3). unfold within in W1.
          destruct (nth_error its k2) as [[p2 m2]|] eqn:Hit2.
          2: { apply nth_error_None in Hit2. rewrite map_length in Hit2. rewrite wish_length in Hit2. apply nth_error_None in Hit2. congruence. }
          destruct (part_bits k2 p2 m2 h2 Hit2 C1) as [D1 D2]. pose proof (total_next its k2 p2 m2 Hit2) as EN2.
          destruct (Nat.lt_trichotomy k2 k) as [L|[L|L]]; [|exact L|].
          - pose proof (total_mono its wish_put (S k2) k ltac:(lia)). lia.
          - pose proof (total_mono its wish_put (S k) k2 ltac:(lia)). lia. }
        subst k2. assert (h2 = h') by congruence. subst h2. exists fl. split; [auto|split; [auto|lia]].
      - intros [fl [C1 [C2 C3]]]. right. exists k, h', fl. split; [auto|split; [auto|split; [auto|lia]]]. }
    rewrite C. clear C. destruct x as [[p0 m0] all].
    assert (HU : forall k2 n2 asg2 m2 off w, nth_error its k2 = Some (Header n2 asg2, m2) -> 0 <= off -> off + w <= bits m2 -> total (firstn k2 its) + off <= i < total (firstn k2 its) + off + w -> k2 = k).
    { intros k2 n2 asg2 m2 off w U1 U2 U3 U4. pose proof (total_next its k2 _ _ U1) as EN2. destruct (Nat.lt_trichotomy k2 k) as [L|[L|L]]; [|exact L|].
      - pose proof (total_mono its wish_put (S k2) k ltac:(lia)). lia.
      - pose proof (total_mono its wish_put (S k) k2 ltac:(lia)). lia. }
    assert (RAW : (forall n asg, p0 <> Header n asg) -> ((exists fl, In fl (h_fields h') /\ f_skip fl = false /\ f_off fl <= i - total (firstn k its) < f_off fl + f_width fl) <-> ~ disregarded ws i)).
    { intros Hr. assert (p0 = p) by (destruct p0; cbn [plain] in Ep; try congruence; destruct (Hr n asg); reflexivity). subst p0. destruct (wish_nth _ _ HM _ _ Hx) as [h [Hh _]]. split.
      - intros _ HD. destruct (disregarded_in _ HD) as [k2 [n [asg [m2 [all2 [fld [off [w [H1 [H2 [H3 [H4 [H5 [H6 H7]]]]]]]]]]]]]].
        assert (k2 = k) by (eapply HU; eauto). subst k2. rewrite Hx in H1. apply some_inj in H1. apply (Hr n asg). congruence.
      - intros _. eapply raw_counts; eauto. lia. }
    destruct p0 as [n asg|ps|num ps|ps]; [|apply RAW; discriminate..].
    cbn [plain] in Ep. assert (m0 = m) by congruence. subst m0. destruct (wish_header _ _ _ _ _ Hx) as [h [h2 [_ [Hk2 [_ [HF [HT [_ [HK HD]]]]]]]]]. assert (h2 = h') by congruence. subst h2.
    rewrite (header_counts n (kept asg) asg m all h' (i - total (firstn k its)) HF HT HK HD) by lia. split; intros H HX; apply H.
    + destruct (disregarded_in _ HX) as [k2 [n2 [asg2 [m2 [all2 [fld [off [w [H1 [H2 [H3 [H4 [H5 [H6 H7]]]]]]]]]]]]]].
      assert (k2 = k) by (eapply HU; eauto). subst k2. rewrite Hx in H1. apply some_inj in H1. assert (m2 = m /\ asg2 = asg /\ all2 = all) as [-> [-> ->]] by (repeat split; congruence). exists fld, off, w. split; [auto|split; [auto|lia]].
    + destruct HX as [fld [off [w [X1 [X2 X3]]]]]. exists k, n, asg, m, all, fld, off, w. split; [auto|split; [auto|split; [auto|lia]]].
Qed.

Lemma unmasked : mk = false -> argc_frame F = Ret (Some (length F, fr)) -> forall i, ~ disregarded ws i.
Proof.
  intros Hmk HA i HD. destruct (disregarded_in _ HD) as [k [n [asg [m [all [fld [off [w [H1 [H2 [H3 [H4 [H5 [H6 H7]]]]]]]]]]]]]].
  destruct (wish_header _ _ _ _ _ H1) as [h [h' [Hh [Hk' [_ [HF [[HT1 HT2] [HE [HK HN]]]]]]]]]. pose proof (HT2 _ _ _ H2) as Ht. rewrite <- tagged_tags in Ht. apply in_map_iff in Ht. destruct Ht as [[c [l s]] [E Hin]].
  cbn [fst snd] in E. apply pair_inj in E. destruct E as [-> ->]. pose proof (tagged_skip _ _ _ HK HN _ _ _ Hin) as Hs. rewrite H3 in Hs. subst s.
  destruct (proj1 (tagged_in (h_fields h') (off, w) true)) as [fl [F1 [F2 F3]]]; [exists fld; exact Hin|].
  assert (K : exists g, In g (h_fields h) /\ f_skip g = true).
  { assert (In (f_name fl, true) (skips h)) by (rewrite <- HE; unfold skips; apply in_map_iff; exists fl; split; [f_equal; exact F3|exact F1]). unfold skips in H. apply in_map_iff in H. destruct H as [g [G1 G2]]. apply pair_inj in G1. exists g. tauto. }
  destruct K as [g [G1 G2]]. pose proof (ignored_marks _ _ _ _ _ HA (nth_error_In _ _ Hh) G1 G2) as K. cbn [fr_has_mask] in K. congruence.
Qed.

Lemma wish_accepts : forall w a c rx, In w ["rx"; "name"]%string -> command_words (w :: a :: F) c -> argc_frame F = Ret (Some (length F, fr)) -> c_frame c = Some f' -> Forall is_byte rx ->
  (accepts c rx <-> length rx = length b /\ forall i, 0 <= i < 8 * Z.of_nat (length b) -> ~ disregarded ws i -> bit_at rx i = bit_at b i).
Proof.
  intros w a c rx Hw HC HA Hf Hr. destruct (framed_command _ _ _ _ _ _ _ Hw HC Hf HS) as [[_ [f1 [A1 [A2 A3]]]] [Hb _]].
  pose proof HS as [_ [_ HB]]. pose proof (frame_to_buf_inv _ _ _ HB) as [_ [P1 [P2 _]]]. cbn [fr_padding fr_has_mask] in P1, P2. pose proof (proj1 (frame_range _ _ _ HB)) as BB. rewrite P2 in A3.
  destruct (Bool.bool_dec mk true) as [Em|Em].
  - rewrite Em in A3. destruct A3 as [m [M1 M2]]. pose proof (serialised_mask _ _ _ _ HS wish_sv) as MK. destruct (mask_bits _ _ M1 MK) as [_ [M3 _]].
    pose proof (mask_length _ _ _ _ HB M1) as ML.
    rewrite (accepts_bits c f' b rx Hf Hb P1 Hr BB) by (intros x Hx; assert (x = m) by congruence; subst; auto).
    rewrite M2. unfold compared. split; intros [H1 H2]; (split; [auto|]); intros i Hi Hc; apply H2; auto.
    + right. apply (counts_mask _ _ M1 MK); [rewrite ML; lia|]. apply wish_counts; [lia|auto].
    + destruct Hc as [Hc|Hc]; [lia|]. apply (counts_mask _ _ M1 MK) in Hc; [|rewrite ML; lia]. apply wish_counts in Hc; [auto|lia].
  - apply Bool.not_true_is_false in Em. rewrite Em in A3. pose proof (unmasked Em HA) as NO.
    rewrite (accepts_bits c f' b rx Hf Hb P1 Hr BB) by (intros x Hx; congruence). rewrite A3. split; intros [H1 H2]; (split; [auto|]); intros i Hi Hc; apply H2; auto. exact I.
Qed.
End Wished.

(** The header formats of the standards (C63). *)

From Verif Require Import PTextIp PTextNum Frame PSer PParse PMatch PFrame PInv PStep PArgs PSoft PFill PGroup PAll PSafe PAssign PImage PSum PEmit SpecFill PCheck PCheck2 PLen PKeep PTwice PCoap SpecLayout.

(** *** What the fillers leave alone *)
Definition autos (k : filler) : list string :=
  (match k with
   | FL_ether => ["et"] | FL_ipv4 => ["proto"; "len"; "chksum"] | FL_ipv6 => ["next"; "len"] | FL_icmp => ["chksum"]
   | FL_udp_tcp => ["len"; "chksum"] | FL_ptp => ["hdr-messageLength"] | FL_ptp_tlv => ["tlv-length"] | FL_coap => ["tkl"]
   | _ => []
   end)%string.

Lemma put_text_other : forall n txt k h h' m, put_text n txt k h = Ret h' -> n <> m -> find_field h' m = find_field h m.
Proof.
  intros n txt k h h' m H Hne. unfold put_text in H. binv H. unfold fset in H. binv H. apply ret_inj in H. subst h'.
  unfold find_field, fmod. cbn [set_fields h_fields]. apply find_mod_other; auto.
Qed.

Lemma find_set_type : forall x h m, find_field (set_type x h) m = find_field h m.
Proof. reflexivity. Qed.

Lemma filled_other : forall f f' b k t h h' m, emitting f f' b k t h h' -> value_fill (h_fill t) = true -> ~ In m (autos (h_fill t)) ->
  find_field h' m = find_field h m.
Proof.
  intros f f' b k t h h' m E Hv Hm. destruct (emitting_tail _ _ _ _ _ _ _ E) as [WHB [WB [Wh Wh']]].
  pose proof (e_run _ _ _ _ _ _ _ E) as HR. pose proof (e_types _ _ _ _ _ _ _ E) as HT. pose proof (e_tmpl _ _ _ _ _ _ _ E) as Ht. pose proof (e_inv _ _ _ _ _ _ _ E) as I.
  assert (Hptp : forall n sub, n <> m -> ptp_fill n sub (firstn k (fr_stack f) ++ h :: skipn (S k) (fr_stack f')) (length (firstn k (fr_stack f))) =
                   Ret (firstn k (fr_stack f) ++ h' :: skipn (S k) (fr_stack f')) -> find_field h' m = find_field h m).
  { intros n sub Hne H. unfold ptp_fill in H. mid H. cbn [bind] in H. destruct (find_field h n) as [fl|] eqn:Ef; [|apply ret_inj in H; apply mid_inj in H; subst; auto].
    destruct (f_val fl) eqn:Ev; [apply ret_inj in H; apply mid_inj in H; subst; auto|]. binv H. binv H. apply ret_inj in H. mid H. apply mid_inj in H. subst a0.
    eapply put_text_other; eauto. }
  destruct (h_fill t) eqn:Ef; try discriminate Hv; cbn [run_fill] in HR; cbn [autos In] in Hm.
  - apply ret_inj in HR. apply mid_inj in HR. subst. auto.
  - apply ether_eff in HR; auto. rewrite HR. destruct (skipn (S k) (fr_stack f')); [auto|apply setd_other; intuition].
  - destruct (ipv4_eff _ _ _ _ _ Ht Ef I WB HT HR) as [-> _]. unfold ipv4_len. rewrite !setd_other by intuition. auto.
  - rewrite (ipv6_eff _ _ _ _ _ Ht Ef I WB HT HR). rewrite !setd_other by intuition. auto.
  - destruct (icmp_eff _ _ _ _ WHB HR) as [[-> _]|[_ [[A' [ll [ph [bb [_ [_ [_ [_ ->]]]]]]]]|[bb [_ [_ ->]]]]]];
      [auto|rewrite find_set_type; apply setd_other; intuition|apply setd_other; intuition].
  - destruct (udp_eff _ _ _ _ WHB HR) as [[-> _]|[_ [A' [ll [tt [ph [bb [_ [_ [_ [_ ->]]]]]]]]]]]; unfold udp_len; rewrite !setd_other by intuition; auto.
  - eapply Hptp; [|eauto]. intuition.
  - eapply Hptp; [|eauto]. intuition.
  - unfold coap_fill_defaults in HR. mid HR. cbn [bind] in HR. binv HR. binv HR. destruct (f_val a) eqn:Ea; [apply ret_inj in HR; apply mid_inj in HR; subst; auto|].
    destruct (f_val a0); [|apply ret_inj in HR; apply mid_inj in HR; subst; auto]. destruct (nth_error (h_fields h) 5); [|discriminate].
    binv HR. apply ret_inj in HR. mid HR. apply mid_inj in HR. subst a1. eapply put_text_other; [eauto|intuition].
Qed.

Lemma keeps_find : forall h h' n f, keeps_given h h' -> find_field h n = Some f -> exists f', find_field h' n = Some f' /\ fkeep f f'.
Proof.
  intros h h' n f [_ H]. unfold find_field. induction H as [|x y a c Hxy _ IH]; cbn [find]; intros Hf; [discriminate|].
  assert (f_name y = f_name x) by (destruct Hxy as [-> _]; reflexivity). rewrite H.
  destruct (String.eqb n (f_name x)); [|auto]. apply some_inj in Hf. subst. eauto.
Qed.

(** What a field of the laid out header [l] holds in the end. *)
Definition settled (l h' : hdr) (fld : string) (auto : bool) : Prop :=
  forall fl, find_field l fld = Some fl -> exists fl', find_field h' fld = Some fl' /\ f_def fl' = f_def fl /\
    (f_val fl <> None \/ auto = false -> f_val fl' = f_val fl).

Lemma filled_settled : forall f f' b k t h h' fld auto, emitting f f' b k t h h' -> value_fill (h_fill t) = true ->
  (auto = false -> ~ In fld (autos (h_fill t))) -> settled h h' fld auto.
Proof.
  intros f f' b k t h h' fld auto E Hv Ha fl Hf. destruct (keeps_find _ _ _ _ (filled_keeps _ _ _ _ _ _ _ E Hv) Hf) as [fl' [F1 [F2 F3]]].
  exists fl'. split; [auto|]. split; [rewrite F2; reflexivity|]. intros [H|H].
  - destruct F3; [contradiction|auto].
  - rewrite (filled_other _ _ _ _ _ _ _ _ E Hv (Ha H)) in F1. congruence.
Qed.

Lemma refl_settled : forall h fld auto, settled h h fld auto.
Proof. intros h fld auto fl H. exists fl. auto. Qed.

Lemma chksum_settled : forall l h' x fld auto, (exists fc, find_field l "chksum" = Some fc /\ f_val fc = None) -> (auto = false -> fld <> "chksum"%string) ->
  (h' = l \/ h' = put "chksum" x l) -> settled l h' fld auto.
Proof.
  intros l h' x fld auto [fc [C1 C2]] Ha [->| ->]; [apply refl_settled|]. intros fl Hf.
  destruct (String.eqb_spec "chksum" fld) as [<-|Hne].
  - destruct (keeps_find _ _ _ _ (put_keeps_given "chksum" x l fc C1 C2) Hf) as [fl' [F1 [F2 F3]]]. exists fl'. split; [auto|]. split; [rewrite F2; reflexivity|].
    intros [H|H]; [destruct F3; [contradiction|auto]|]. exfalso. apply (Ha H). reflexivity.
  - exists fl. rewrite put_other by auto. auto.
Qed.

(** The bits of a placed field *)
Lemma keeps_layout : forall h h', keeps_given h h' -> names (h_fields h') = names (h_fields h) /\ map lay (h_fields h') = map lay (h_fields h) /\ h_size h' = h_size h.
Proof.
  intros h h' [H0 H]. split; [|split; [|auto]]; induction H as [|x y a c [Hxy _] _ IH]; cbn [names map]; auto; rewrite Hxy; unfold names in *; rewrite IH; reflexivity.
Qed.

Lemma placed : forall f f' b k l h' fld off w fl auto, frame_to_buf f = Ret (f', b) -> Forall (wf_hdr false) (fr_stack f') -> nth_error (fr_stack f') k = Some h' ->
  keeps_given l h' ->
  at_place l fld off w = true -> 0 <= off -> 0 <= w -> off + w <= 8 * h_size l -> find_field l fld = Some fl -> settled l h' fld auto ->
  (forall v, f_val fl = Some v -> field_at f' b k off (Z.to_nat w) = positional 256 v mod 2 ^ w) /\
  (f_val fl = None -> auto = false -> field_at f' b k off (Z.to_nat w) = match f_def fl with Some v => positional 256 v mod 2 ^ w | None => 0 end).
Proof.
  intros f f' b k l h' fld off w fl auto H W Hk HK Hp H0 Hw Hin Hf HS. destruct (keeps_layout _ _ HK) as [L1 [L2 L3]].
  destruct (at_place_spec l h' fld off w L1 L2 Hp) as [j [f2 [_ [F2 [F3 [F4 F5]]]]]].
  destruct (HS fl Hf) as [fl' [S1 [S2 S3]]]. assert (f2 = fl') by congruence. subst f2.
  assert (K : field_at f' b k off (Z.to_nat w) = match field_data fl' with Some v => positional 256 v mod 2 ^ w | None => 0 end).
  { unfold field_at. rewrite <- F4, <- F5. eapply emitted_lone; eauto. unfold within. rewrite F4, F5, L3. lia. }
  rewrite K. unfold field_data. split.
  - intros v Hv. rewrite S3 by (left; congruence). rewrite Hv. reflexivity.
  - intros Hv Ha. rewrite S3 by auto. rewrite Hv, S2. destruct (f_def fl); reflexivity.
Qed.

(** The table against the templates *)
Definition fmt_chk (p : string * format) : bool :=
  match find_tmpl (fst p) with
  | None => false
  | Some t =>
      negb (existsb (String.eqb (h_name t)) ["igmp"; "mld"; "sv"; "profinet-rtc"]%string) && String.eqb (h_name t) (fst p) && value_fill (h_fill t) &&
      (String.eqb (fst p) "coap" || (negb (varhdr t) && (bits (snd p) =? 8 * h_size t))) &&
      forallb (fun q => String.eqb (fst q) "-" ||
        match place (snd p) (fst q) with
        | None => false
        | Some (off, w) =>
            (0 <=? off) && (0 <=? w) && (off + w <=? 8 * h_size t) && at_place t (fst q) off w &&
            (is_worked_out (fst p) (fst q) ||
             (negb (existsb (String.eqb (fst q)) (autos (h_fill t))) &&
              match find_field t (fst q) with
              | Some ft => match f_def ft with Some v => positional 256 v mod 2 ^ w | None => 0 end =? preset_value (fst p) (fst q)
              | None => false
              end))
        end) (snd p)
  end.
Lemma formats_checked : forallb fmt_chk formats = true.
Proof. vm_compute. reflexivity. Qed.

Lemma place_in : forall m p fld off w, place_from p m fld = Some (off, w) -> exists q, In (fld, q) m.
Proof.
  induction m as [|[n w0] r IH]; intros p fld off w H; cbn [place_from] in H; [discriminate|].
  destruct (String.eqb_spec n fld) as [->|]; [exists w0; left; auto|]. destruct (IH _ _ _ _ H) as [q Hq]. exists q. right. auto.
Qed.

(** Headers whose fields follow one another *)
Definition fmt (fs : list field) : format := map (fun f => (f_name f, f_width f)) fs.

Lemma seq_place : forall fs p fld off w, seqok (map lay fs) p -> place_from p (fmt fs) fld = Some (off, w) ->
  exists j f, index_of fld fs = Some j /\ nth_error fs j = Some f /\ f_off f = off /\ f_width f = w /\ p <= off /\ 0 <= w /\ off + w <= p + sumw fs.
Proof.
  induction fs as [|x r IH]; intros p fld off w H Hp; cbn [fmt map place_from] in Hp; [discriminate|]. cbn [map lay seqok] in H. destruct H as [H1 [H2 H3]].
  cbn [index_of]. rewrite String.eqb_sym in Hp. pose proof (seqok_widths _ _ H3) as HW.
  assert (HS : 0 <= sumw r). { clear - HW. unfold sumw. induction HW; cbn [fold_right]; lia. }
  unfold sumw. cbn [fold_right]. fold (sumw r). destruct (String.eqb fld (f_name x)).
  - apply some_inj in Hp. apply pair_inj in Hp. destruct Hp as [P1 P2]. exists 0%nat, x. cbn. repeat split; lia.
  - destruct (IH _ _ _ _ H3 Hp) as [j [f [J1 [J2 [J3 [J4 [J5 [J6 J7]]]]]]]]. exists (S j), f. rewrite J1. cbn. repeat split; auto; lia.
Qed.

Lemma seq_apart : forall fs p j i f g, seqok (map lay fs) p -> nth_error fs j = Some f -> nth_error fs i = Some g -> (i < j)%nat -> f_off g + f_width g <= f_off f.
Proof.
  assert (A : forall fs p j f, seqok (map lay fs) p -> nth_error fs j = Some f -> p <= f_off f).
  { induction fs as [|x r IH]; intros p j f H Hj; [destruct j; discriminate|]. cbn [map lay seqok] in H. destruct H as [H1 [H2 H3]].
    destruct j as [|j]; cbn in Hj; [apply some_inj in Hj; subst; lia|]. specialize (IH _ _ _ H3 Hj). lia. }
  induction fs as [|x r IH]; intros p j i f g H Hj Hi Hlt; [destruct j; discriminate|]. cbn [map lay seqok] in H. destruct H as [H1 [H2 H3]].
  destruct j as [|j]; [lia|]. cbn in Hj. destruct i as [|i]; cbn in Hi.
  - apply some_inj in Hi. subst. specialize (A _ _ _ _ H3 Hj). lia.
  - eapply IH; eauto. lia.
Qed.

Lemma seq_at_place : forall h fld off w, seqok (map lay (h_fields h)) 0 -> place (fmt (h_fields h)) fld = Some (off, w) -> at_place h fld off w = true /\ 0 <= off /\ 0 <= w /\ off + w <= sumw (h_fields h).
Proof.
  intros h fld off w H Hp. destruct (seq_place _ _ _ _ _ H Hp) as [j [f [J1 [J2 [J3 [J4 [J5 [J6 J7]]]]]]]]. split; [|lia].
  unfold at_place. rewrite J1. unfold lone_chk. rewrite nth_error_map, J2. cbn [option_map lay]. rewrite J3, J4, !Z.eqb_refl. cbn [andb].
  apply forallb_forall. intros [i q] Hi. cbn [fst snd]. destruct (Nat.eqb_spec i j) as [|Hne]; [reflexivity|]. cbn [orb].
  assert (Hq : nth_error (map lay (h_fields h)) i = Some q).
  { apply (In_nth_error) in Hi. destruct Hi as [u Hu]. clear - Hu. revert u i q Hu. 
    assert (G : forall (l : list (Z * Z)) s u i q, nth_error (combine (seq s (length l)) l) u = Some (i, q) -> nth_error l (i - s) = Some q /\ (s <= i)%nat).
    { induction l as [|x l IH]; intros s u i q Hu; cbn in Hu; [destruct u; discriminate|]. destruct u as [|u]; cbn in Hu.
      - apply some_inj in Hu. apply pair_inj in Hu. destruct Hu as [-> ->]. rewrite Nat.sub_diag. split; [reflexivity|lia].
      - destruct (IH _ _ _ _ Hu) as [G1 G2]. split; [|lia]. replace (i - s)%nat with (S (i - S s)) by lia. exact G1. }
    intros u i q Hu. destruct (G _ _ _ _ _ Hu) as [G1 _]. rewrite Nat.sub_0_r in G1. exact G1. }
  rewrite nth_error_map in Hq. destruct (nth_error (h_fields h) i) as [g|] eqn:Eg; [|discriminate]. cbn [option_map] in Hq. apply some_inj in Hq. subst q.
  unfold apart, lay. cbn [fst snd]. destruct (Nat.lt_ge_cases i j) as [Hlt|Hge].
  - pose proof (seq_apart _ _ _ _ _ _ H J2 Eg Hlt). lia.
  - pose proof (seq_apart _ _ _ _ _ _ H Eg J2 ltac:(lia)). lia.
Qed.

Lemma place_app : forall a b p fld x, place_from p a fld = Some x -> place_from p (a ++ b) fld = Some x.
Proof. induction a as [|[n w] a IH]; intros b p fld x H; cbn [place_from app] in *; [discriminate|]. destruct (String.eqb n fld); auto. Qed.

(** *** The main lemma *)
Definition laid_ok (f' : frame) (b : list Z) (k : nat) (h : hdr) (fld : string) (off w : Z) : Prop :=
  (forall v, value_of h fld = Some v -> field_at f' b k off (Z.to_nat w) = positional 256 v mod 2 ^ w) /\
  (value_of h fld = None -> is_worked_out (h_name h) fld = false -> field_at f' b k off (Z.to_nat w) = preset_value (h_name h) fld).

Lemma laid_finish : forall f f' b k t h h' l fld off w fl, emitting f f' b k t h h' -> keeps_given l h' ->
  at_place l fld off w = true -> 0 <= off -> 0 <= w -> off + w <= 8 * h_size l -> find_field l fld = Some fl -> value_of h fld = f_val fl ->
  settled l h' fld (is_worked_out (h_name h) fld) ->
  (is_worked_out (h_name h) fld = false -> match f_def fl with Some v => positional 256 v mod 2 ^ w | None => 0 end = preset_value (h_name h) fld) ->
  laid_ok f' b k h fld off w.
Proof.
  intros f f' b k t h h' l fld off w fl E HK Hp H0 Hw Hin Hf Hv HS Hd.
  destruct (placed f f' b k l h' fld off w fl _ (e_buf _ _ _ _ _ _ _ E) (e_wf _ _ _ _ _ _ _ E) (e_dst _ _ _ _ _ _ _ E) HK Hp H0 Hw Hin Hf HS) as [P1 P2].
  unfold laid_ok. rewrite Hv. split; [exact P1|]. intros Hn Ha. rewrite (P2 Hn Ha). auto.
Qed.

Definition coap5 : format := [("ver", 2); ("type", 2); ("tkl", 4); ("code", 8); ("msgid", 16)]%string.

Lemma layout_table : forall f f' b k t h h' m fld off w, emitting f f' b k t h h' ->
  find (fun p => String.eqb (fst p) (h_name h)) formats = Some (h_name h, m) -> fld <> "-"%string -> place m fld = Some (off, w) -> laid_ok f' b k h fld off w.
Proof.
  intros f f' b k t h h' m fld off w E Hm Hf Hp. pose proof formats_checked as HC. rewrite forallb_forall in HC.
  specialize (HC _ (proj1 (find_some _ _ Hm))). unfold fmt_chk in HC. cbn [fst snd] in HC.
  destruct (find_tmpl (h_name h)) as [t0|] eqn:Et; [|discriminate]. rewrite !andb_true_iff in HC. destruct HC as [[[[C1 C2] C3] C4] C5].
  assert (t0 = t) by (symmetry; eapply emitting_name; eauto). subst t0.
  rewrite forallb_forall in C5. destruct (place_in _ _ _ _ _ Hp) as [q Hq]. specialize (C5 _ Hq). cbn [fst snd] in C5. rewrite Hp in C5.
  destruct (String.eqb_spec fld "-") as [|_]; [contradiction|]. cbn [orb] in C5. rewrite !andb_true_iff in C5. destruct C5 as [[[[D1 D2] D3] D4] D5].
  pose proof (e_inv _ _ _ _ _ _ _ E) as I.
  destruct (at_place_find _ _ _ _ D4) as [ft Hft]. destruct (inv_find _ _ _ _ I Hft) as [fl [Hfl Hs]].
  assert (HV : at_place h fld off w = true /\ off + w <= 8 * h_size h).
  { apply orb_true_iff in C4. destruct C4 as [C4|C4].
    - apply String.eqb_eq in C4. assert (t = HDR_COAP) by (eapply emitting_name; [exact E|exact C4|reflexivity]). subst t.
      destruct (coap_shape h I) as [x [Eh [W1 [W2 W3]]]]. rewrite C4 in Hm. cbn in Hm. apply some_inj in Hm. apply pair_inj in Hm. destruct Hm as [_ Hm]. fold coap5 in Hm. subst m.
      destruct (seq_at_place h fld off w) as [P1 [P2 [P3 P4]]].
      + apply (i_var _ _ I eq_refl).
      + rewrite Eh. unfold place. change (fmt (h_fields (coap_hdr (skip_nth (h_fields h)) x (h_size h) (val_nth (h_fields h))))) with
          (coap5 ++ [("token"%string, x)]). apply place_app. exact Hp.
      + split; [exact P1|]. pose proof (i_var _ _ I eq_refl) as [_ [K _]]. lia.
    - rewrite andb_true_iff in C4. destruct C4 as [C4 _]. apply negb_true_iff in C4. destruct (inv_layout _ _ I C4) as [L1 [L2 L3]].
      split; [|lia]. unfold at_place in *. rewrite (index_of_names fld _ _ L1), L2. exact D4. }
  destruct HV as [V1 V2].
  eapply (laid_finish f f' b k t h h' h fld off w fl E); try lia; auto.
  - eapply filled_keeps; eauto.
  - unfold value_of. rewrite Hfl. reflexivity.
  - apply (filled_settled f f' b k t); auto. intros Hw Hin. rewrite Hw in D5. cbn [orb] in D5. apply andb_true_iff in D5. destruct D5 as [D5 _]. apply negb_true_iff in D5.
    assert (existsb (String.eqb fld) (autos (h_fill t)) = true) by (apply existsb_exists; exists fld; split; [auto|apply String.eqb_refl]). congruence.
  - intros Hw. rewrite Hw in D5. cbn [orb] in D5. apply andb_true_iff in D5. destruct D5 as [_ D5]. rewrite Hft in D5.
    rewrite (inv_def _ _ _ _ I Hfl), Hft. apply Z.eqb_eq in D5. exact D5.
Qed.

(** The messages with several forms *)
Definition laid_chk (n : string) (l : hdr) (m : format) : bool :=
  forallb (fun q =>
    match place m (fst q) with
    | None => false
    | Some (off, w) =>
        (0 <=? off) && (0 <=? w) && (off + w <=? 8 * h_size l) && at_place l (fst q) off w &&
        (is_worked_out n (fst q) ||
         match find_field l (fst q) with
         | Some ft => match f_def ft with Some v => positional 256 v mod 2 ^ w | None => 0 end =? preset_value n (fst q)
         | None => false
         end)
    end) m.

Lemma laid_by_chk : forall f f' b k t h h' l m fld off w, emitting f f' b k t h h' -> laid_chk (h_name h) l m = true -> place m fld = Some (off, w) ->
  keeps_given l h' -> settled l h' fld (is_worked_out (h_name h) fld) -> value_of h fld = value_of l fld -> laid_ok f' b k h fld off w.
Proof.
  intros f f' b k t h h' l m fld off w E HC Hp HK HS Hv. unfold laid_chk in HC. rewrite forallb_forall in HC.
  destruct (place_in _ _ _ _ _ Hp) as [q Hq]. specialize (HC _ Hq). cbn [fst] in HC. rewrite Hp in HC. rewrite !andb_true_iff in HC. destruct HC as [[[[D1 D2] D3] D4] D5].
  destruct (at_place_find _ _ _ _ D4) as [fl Hfl]. rewrite Hfl in D5.
  eapply (laid_finish f f' b k t h h' l fld off w fl E); try lia; auto.
  - rewrite Hv. unfold value_of. rewrite Hfl. reflexivity.
  - intros Hw. rewrite Hw in D5. cbn [orb] in D5. apply Z.eqb_eq in D5. exact D5.
Qed.

Ltac same_value := unfold value_of, find_field; cbn [find f_name h_fields]; repeat (match goal with |- context [String.eqb ?x ?y] => destruct (String.eqb x y); [reflexivity|] end); reflexivity.

Lemma igmp_value : forall q r s v fld, value_of (igmp_hdr s v) fld = value_of (igmp_laid q r s v) fld.
Proof. intros. unfold igmp_hdr, igmp_laid. same_value. Qed.
Lemma mld_value : forall q r s v fld, value_of (mld_hdr s v) fld = value_of (mld_laid q r s v) fld.
Proof. intros. unfold mld_hdr, mld_laid. same_value. Qed.
Lemma sv_value : forall s v fld, value_of (sv_hdr s v) fld = value_of (sv_short s v) fld.
Proof. intros. unfold sv_hdr, sv_short. same_value. Qed.

Lemma layout_igmp : forall f f' b k h h' fld off w, emitting f f' b k HDR_IGMP h h' -> place (igmp_format h) fld = Some (off, w) -> laid_ok f' b k h fld off w.
Proof.
  intros f f' b k h h' fld off w E Hp. pose proof (e_inv _ _ _ _ _ _ _ E) as I. pose proof (e_run _ _ _ _ _ _ _ E) as HR.
  destruct (emitting_tail _ _ _ _ _ _ _ E) as [WHB _]. change (h_fill HDR_IGMP) with FL_igmp in HR. cbn [run_fill] in HR.
  destruct (igmp_eff _ _ _ _ I WHB HR) as [s [v [q [r [Eh [Hq [Hr [_ Hor]]]]]]]].
  change (existsb (given h) query_fields) with (is_query h) in Hq. change (existsb (given h) report_fields) with (is_report h) in Hr.
  assert (HX : exists x, h' = igmp_laid q r s v \/ (v 2%nat = None /\ h' = put "chksum" x (igmp_laid q r s v))).
  { destruct Hor as [[_ H]|[_ [H1 H]]]; [exists []; auto|]. eexists. right. split; eauto. }
  destruct HX as [x HX].
  assert (HK : keeps_given (igmp_laid q r s v) h') by (apply (group_chksum igmp_laid q r s v true x); [eexists; split; reflexivity|exact HX]).
  assert (En : h_name h = "igmp"%string) by apply (i_name _ _ I).
  eapply (laid_by_chk f f' b k HDR_IGMP h h' (igmp_laid q r s v) (igmp_format h)); eauto.
  - rewrite En. unfold igmp_format. rewrite <- Hq, <- Hr. destruct q, r; vm_compute; reflexivity.
  - destruct HX as [->|[Hv ->]]; [apply refl_settled|]. eapply (chksum_settled _ _ x); [eexists; split; [reflexivity|exact Hv]| |auto].
    intros Ha ->. rewrite En in Ha. discriminate Ha.
  - rewrite Eh. apply igmp_value.
Qed.

Lemma layout_mld : forall f f' b k h h' fld off w, emitting f f' b k HDR_MLD h h' -> regular h = true -> place (mld_format h) fld = Some (off, w) -> laid_ok f' b k h fld off w.
Proof.
  intros f f' b k h h' fld off w E Hreg Hp. pose proof (e_inv _ _ _ _ _ _ _ E) as I. pose proof (e_run _ _ _ _ _ _ _ E) as HR.
  destruct (emitting_tail _ _ _ _ _ _ _ E) as [WHB _]. change (h_fill HDR_MLD) with FL_mld in HR. cbn [run_fill] in HR.
  destruct (mld_eff _ _ _ _ I Hreg WHB HR) as [s [v [q [r [Eh [Hq [Hr [_ Hor]]]]]]]].
  change (existsb (given h) query_fields) with (is_query h) in Hq. change (existsb (given h) report_fields) with (is_report h) in Hr.
  assert (HX : exists x, h' = mld_laid q r s v \/ (v 2%nat = None /\ h' = put "chksum" x (mld_laid q r s v))).
  { destruct Hor as [[_ H]|[_ [H1 [ip [sf [df [sip [dip [bb H]]]]]]]]]; [exists []; auto|]. eexists. right. split; [auto|apply H]. }
  destruct HX as [x HX].
  assert (HK : keeps_given (mld_laid q r s v) h') by (apply (group_chksum mld_laid q r s v true x); [eexists; split; reflexivity|exact HX]).
  assert (En : h_name h = "mld"%string) by apply (i_name _ _ I).
  assert (Hqr : q && r = false).
  { unfold regular in Hreg. rewrite Eh in Hreg at 1. cbn [mld_hdr h_fill] in Hreg. apply negb_true_iff in Hreg. rewrite Hq, Hr. exact Hreg. }
  eapply (laid_by_chk f f' b k HDR_MLD h h' (mld_laid q r s v) (mld_format h)); eauto.
  - rewrite En. unfold mld_format. rewrite <- Hq, <- Hr. destruct q, r; try discriminate Hqr; vm_compute; reflexivity.
  - destruct HX as [->|[Hv ->]]; [apply refl_settled|]. eapply (chksum_settled _ _ x); [eexists; split; [reflexivity|exact Hv]| |auto].
    intros Ha ->. rewrite En in Ha. discriminate Ha.
  - rewrite Eh. apply mld_value.
Qed.

Lemma layout_sv : forall f f' b k h h' fld off w, emitting f f' b k HDR_SV h h' -> place (sv_format h) fld = Some (off, w) -> laid_ok f' b k h fld off w.
Proof.
  intros f f' b k h h' fld off w E Hp. pose proof (e_inv _ _ _ _ _ _ _ E) as I. destruct (sv_eff _ _ _ _ _ _ E) as [s [v [Eh Eh']]].
  assert (En : h_name h = "sv"%string) by apply (i_name _ _ I). unfold sv_format in Hp. change ["tlv2_type"; "tlv2_len"; "tlv2_mac"]%string with tlv2_fields in Hp.
  destruct (existsb (given h) tlv2_fields).
  - subst h'. eapply (laid_by_chk f f' b k HDR_SV h h h); [exact E| |exact Hp|apply keeps_refl|apply refl_settled|reflexivity].
    rewrite En, Eh. vm_compute. reflexivity.
  - eapply (laid_by_chk f f' b k HDR_SV h h' h'); [exact E| |exact Hp|apply keeps_refl|apply refl_settled|].
    + rewrite En, Eh'. vm_compute. reflexivity.
    + rewrite Eh', Eh. apply sv_value.
Qed.

(** A header with one field of variable width *)
Lemma fmt_var : forall t fs gs W, map (fsig t) fs = map (fsig t) gs -> (forall g, In g fs -> isv t g = true -> f_width g = W) ->
  fmt fs = map (fun ft => (f_name ft, if isv t ft then W else f_width ft)) gs.
Proof.
  intros t. induction fs as [|x r IH]; intros [|y s] W H HW; try discriminate; [reflexivity|]. cbn [map] in H. cbn [fmt map].
  assert (E1 : fsig t x = fsig t y) by congruence. assert (E2 : map (fsig t) r = map (fsig t) s) by congruence.
  f_equal; [|apply IH; [exact E2|intros g Hg; apply HW; right; auto]]. pose proof (fsig_isv _ _ _ E1) as B.
  specialize (HW x (or_introl eq_refl)). unfold fsig in E1. rewrite B in E1. rewrite <- B. destruct (isv t x); [rewrite HW by auto; congruence|].
  rewrite <- B in E1. congruence.
Qed.

Lemma layout_profinet : forall f f' b k h h' m fld off w, emitting f f' b k HDR_PNET_RTC h h' -> profinet_format h = Some m -> place m fld = Some (off, w) -> laid_ok f' b k h fld off w.
Proof.
  intros f f' b k h h' m fld off w E Hm Hp. pose proof (e_inv _ _ _ _ _ _ _ E) as I. pose proof (e_tmpl _ _ _ _ _ _ _ E) as Ht.
  assert (En : h_name h = "profinet-rtc"%string) by apply (i_name _ _ I).
  unfold profinet_format in Hm. destruct (value_of h "data") as [v|] eqn:Ev; [|discriminate]. apply some_inj in Hm.
  unfold value_of in Ev. destruct (find_field h "data") as [fd|] eqn:Ed; [|discriminate].
  destruct (find_field_in _ _ _ Ed) as [Hin Hn].
  assert (Hvd : isv HDR_PNET_RTC fd = true).
  { destruct (inv_find _ _ _ _ I (eq_refl : find_field HDR_PNET_RTC "data" = Some _)) as [f2 [F1 F2]]. assert (f2 = fd) by congruence. subst f2. rewrite (fsig_isv _ _ _ F2). reflexivity. }
  assert (HW : f_width fd = 8 * Z.of_nat (length v)).
  { pose proof (i_val _ _ I) as F. rewrite Forall_forall in F. destruct (F fd Hin v) as [_ [_ [_ [F4 _]]]]; [unfold field_data; rewrite Ev; auto|].
    apply F4. left. unfold isv in Hvd. exact Hvd. }
  assert (HF : fmt (h_fields h) = m).
  { rewrite (fmt_var HDR_PNET_RTC (h_fields h) (h_fields HDR_PNET_RTC) (8 * Z.of_nat (length v))); [rewrite <- Hm; reflexivity|apply I|].
    intros g Hg Hgv. rewrite (var_unique _ _ _ _ Ht I Hg Hin Hgv Hvd). exact HW. }
  rewrite <- HF in Hp. destruct (i_var _ _ I eq_refl) as [J1 [J2 _]]. destruct (seq_at_place _ _ _ _ J1 Hp) as [P1 [P2 [P3 P4]]].
  destruct (at_place_find _ _ _ _ P1) as [fl Hfl].
  eapply (laid_finish f f' b k HDR_PNET_RTC h h' h fld off w fl E); auto; try lia.
  - apply (filled_keeps f f' b k HDR_PNET_RTC); auto.
  - unfold value_of. rewrite Hfl. reflexivity.
  - apply (filled_settled f f' b k HDR_PNET_RTC); auto.
  - intros _. rewrite (inv_def _ _ _ _ I Hfl), En. rewrite HF in Hp. destruct (place_in _ _ _ _ _ Hp) as [q Hq]. clear - Hp Hq Hm.
    assert (HD : fld = "data"%string \/ exists w', w = w' /\ In (fld, w') [("frameid", 16); ("cycle", 16); ("ignore", 1); ("reserved2", 1); ("station-ok", 1);
        ("provider-state-run", 1); ("reserved1", 1); ("data-valid", 1); ("redundancy", 1); ("primary", 1); ("transfer-status", 8)]%string).
    { subst m. unfold place in Hp. generalize dependent (8 * Z.of_nat (length v)). intros W Hp Hq.
      repeat (destruct Hq as [Hq|Hq]; [apply pair_inj in Hq; destruct Hq as [<- <-]; cbn [place_from] in Hp;
        repeat match type of Hp with context [String.eqb ?x ?y] => let r := eval vm_compute in (String.eqb x y) in change (String.eqb x y) with r in Hp end; cbv iota in Hp;
        apply some_inj in Hp; apply pair_inj in Hp; destruct Hp as [_ <-]; first [left; reflexivity|right; eexists; split; [reflexivity|vm_compute; tauto]]|]). destruct Hq. }
    destruct HD as [->|[w' [-> HD]]]; [vm_compute; reflexivity|].
    repeat (destruct HD as [HD|HD]; [apply pair_inj in HD; destruct HD as [<- <-]; vm_compute; reflexivity|]). destruct HD.
Qed.

Lemma layout : forall ws f f' b k h fld off w, serialised ws f f' b -> nth_error (fr_stack f) k = Some h -> stands_at h fld off w ->
  laid_ok f' b k h fld off w.
Proof.
  intros ws f f' b k h fld off w HS Hk [Hne [m [Hm Hp]]]. destruct (serialised_emitting _ _ _ _ _ _ HS Hk) as [t [h' E]].
  unfold format_of in Hm.
  destruct (String.eqb_spec (h_name h) "igmp") as [En|_]; [apply some_inj in Hm; subst m|destruct (String.eqb_spec (h_name h) "mld") as [En|_]; [apply some_inj in Hm; subst m|
    destruct (String.eqb_spec (h_name h) "sv") as [En|_]; [apply some_inj in Hm; subst m|destruct (String.eqb_spec (h_name h) "profinet-rtc") as [En|_]]]].
  - assert (t = HDR_IGMP) by (eapply emitting_name; [exact E|exact En|reflexivity]). subst t. eapply layout_igmp; eauto.
  - assert (t = HDR_MLD) by (eapply emitting_name; [exact E|exact En|reflexivity]). subst t. eapply layout_mld; eauto. eapply regular_at; eauto.
  - assert (t = HDR_SV) by (eapply emitting_name; [exact E|exact En|reflexivity]). subst t. eapply layout_sv; eauto.
  - assert (t = HDR_PNET_RTC) by (eapply emitting_name; [exact E|exact En|reflexivity]). subst t. eapply layout_profinet; eauto.
  - destruct (find _ formats) as [[n m0]|] eqn:Ef; [|discriminate]. apply some_inj in Hm. cbn [snd] in Hm. subst m0.
    pose proof (find_some _ _ Ef) as [_ Hn]. cbn [fst] in Hn. apply String.eqb_eq in Hn. subst n. eapply layout_table; eauto.
Qed.

(** The size of a header *)
Lemma layout_size : forall ws f f' b k h h' m, serialised ws f f' b -> header_pair f f' k h h' -> format_of h = Some m ->
  ~ In (h_name h) ["coap"; "sv"; "profinet-rtc"]%string -> 8 * h_size h' = bits m.
Proof.
  intros ws f f' b k h h' m HS [Hk Hk'] Hm Hne. destruct (serialised_emitting _ _ _ _ _ _ HS Hk) as [t [x E]].
  assert (x = h') by (pose proof (e_dst _ _ _ _ _ _ _ E); congruence). subst x. pose proof (e_inv _ _ _ _ _ _ _ E) as I.
  destruct (sizes_after _ _ _ _ HS) as [_ HA].
  assert (HZ : h_size h' = size_after h).
  { apply (f_equal (fun l => nth_error l k)) in HA. rewrite !nth_error_map, Hk, Hk' in HA. cbn in HA. congruence. }
  rewrite HZ. unfold size_after, format_of in *.
  destruct (String.eqb_spec (h_name h) "igmp") as [En|_]; [apply some_inj in Hm; subst m; unfold igmp_format; destruct (is_query h), (is_report h); reflexivity|].
  destruct (String.eqb_spec (h_name h) "mld") as [En|_].
  { apply some_inj in Hm. subst m. pose proof (regular_at _ _ _ _ _ _ HS Hk) as Hreg.
    assert (t = HDR_MLD) by (eapply emitting_name; [exact E|exact En|reflexivity]). subst t.
    assert (Hqr : is_query h && is_report h = false).
    { unfold regular in Hreg. rewrite (i_fill _ _ I) in Hreg. cbn [HDR_MLD h_fill] in Hreg. apply negb_true_iff in Hreg. exact Hreg. }
    unfold mld_format. destruct (is_query h), (is_report h); try discriminate Hqr; reflexivity. }
  destruct (String.eqb_spec (h_name h) "sv") as [En|_]; [exfalso; apply Hne; rewrite En; cbn; tauto|].
  destruct (String.eqb_spec (h_name h) "profinet-rtc") as [En|_]; [exfalso; apply Hne; rewrite En; cbn; tauto|].
  destruct (find _ formats) as [[n m0]|] eqn:Ef; [|discriminate]. apply some_inj in Hm. cbn [snd] in Hm. subst m0.
  pose proof (find_some _ _ Ef) as [Hin Hn]. cbn [fst] in Hn. apply String.eqb_eq in Hn. subst n.
  pose proof formats_checked as HC. rewrite forallb_forall in HC. specialize (HC _ Hin). unfold fmt_chk in HC. cbn [fst snd] in HC.
  destruct (find_tmpl (h_name h)) as [t0|] eqn:Et; [|discriminate]. rewrite !andb_true_iff in HC. destruct HC as [[[[C1 C2] C3] C4] C5].
  assert (t0 = t) by (symmetry; eapply emitting_name; eauto). subst t0.
  apply orb_true_iff in C4. destruct C4 as [C4|C4]; [apply String.eqb_eq in C4; exfalso; apply Hne; rewrite C4; cbn; tauto|].
  apply andb_true_iff in C4. destruct C4 as [C4 C6]. apply negb_true_iff in C4. destruct (inv_layout _ _ I C4) as [_ [_ L3]].
  destruct (String.eqb_spec (h_name h) "coap-opt") as [En|_]; [rewrite En in Ef; vm_compute in Ef; discriminate|]. lia.
Qed.

(** *** The registered numbers (C64) *)
Definition ann_chk (h : string * string) : bool :=
  match find_tmpl (fst h), find (fun p => String.eqb (fst p) (fst h)) formats with
  | Some t, Some m =>
    existsb (fun p => String.eqb (fst p) (fst h) && match snd p with (fld, off, w, d) => String.eqb fld (snd h) &&
      match place (snd m) fld with Some (o', w') => Z.eqb off o' && Z.eqb w w' && Z.ltb 0 w | None => false end end) type_fields
  | _, _ => false
  end.
Lemma ann_checked : forallb ann_chk announces = true.
Proof. vm_compute. reflexivity. Qed.

Lemma ethertypes_chk : forallb (fun p => Z.eqb (type_number (fst p)) (snd p) && Z.leb 0 (snd p) && Z.ltb (snd p) (2 ^ 16)) ethertypes = true.
Proof. vm_compute. reflexivity. Qed.

Lemma registered_numbers : forall ws f f' b k h fld off w m x, serialised ws f f' b -> nth_error (fr_stack f) k = Some h -> named f (S k) m ->
  In (h_name h, fld) announces -> stands_at h fld off w -> user_gave f k fld = false -> registered (h_name h) m x ->
  (In (h_name h) ["ipv4"; "ipv6"] -> In m ["icmp"; "igmp"; "tcp"; "udp"] /\ (h_name h = "ipv6" -> m = "icmp" -> user_gave f (S k) "chksum" = false))%string ->
  field_at f' b k off (Z.to_nat w) = x.
Proof.
  intros ws f f' b k h fld off w m x HS Hk Hn Ha [_ [fm [Hf Hp]]] Hg Hr Hx.
  pose proof ann_checked as HC. rewrite forallb_forall in HC. specialize (HC _ Ha). unfold ann_chk in HC. cbn [fst snd] in HC.
  destruct (find_tmpl (h_name h)); [|discriminate]. destruct (find _ formats) as [m0|] eqn:Ef; [|discriminate].
  apply existsb_exists in HC. destruct HC as [[n0 [[[fld0 off0] w0] d]] [Hin HC]]. cbn [fst snd] in HC.
  rewrite !andb_true_iff in HC. destruct HC as [C1 [C2 C3]]. apply String.eqb_eq in C1. apply String.eqb_eq in C2. subst n0 fld0.
  assert (Hfm : fm = snd m0).
  { unfold format_of in Hf. repeat (match type of Hf with context[String.eqb (h_name h) ?s] => destruct (String.eqb_spec (h_name h) s) as [En|_]; [exfalso; rewrite En in Ha; cbn in Ha; intuition congruence|] end).
    rewrite Ef in Hf. congruence. }
  subst fm. rewrite Hp in C3. rewrite !andb_true_iff in C3. destruct C3 as [[C3 C4] C5].
  apply Z.eqb_eq in C3. apply Z.eqb_eq in C4. subst off0 w0.
  assert (Hk' : named f k (h_name h)) by (exists h; auto).
  rewrite (chaining_next _ _ _ _ _ _ _ _ _ _ _ HS Hk' Hn Hin Hg).
  unfold registered in Hr. unfold announced.
  assert (Hw : (In (h_name h) ["ipv4"; "ipv6"]%string /\ w = 8) \/ (~ In (h_name h) ["ipv4"; "ipv6"]%string /\ w = 16)).
  { clear - Hin. cbn in Hin. repeat (destruct Hin as [Hin|Hin]; [apply pair_inj in Hin; destruct Hin as [<- Hin]; cbn; solve [left; split; [tauto|congruence]|right; split; [intuition discriminate|congruence]]|]). destruct Hin. }
  destruct Hw as [[Hw ->]|[Hw ->]].
  - destruct (Hx Hw) as [Hm Hc]. destruct Hw as [Hw|[Hw|[]]]; rewrite <- Hw in *; cbn [String.eqb Ascii.eqb Bool.eqb andb] in *.
    + cbn in Hr. cbn in Hm. clear - Hr Hm.
      assert (H8 : forall y n, (n, y) = (m, x) -> type_number n mod 2 ^ 8 = y -> type_number m mod 2 ^ 8 = x) by (intros y n H Hy; apply pair_inj in H; destruct H; subst; auto).
      destruct Hr as [H|[H|[H|[H|[H|[H|[]]]]]]]; (apply (H8 _ _ H); reflexivity) || (exfalso; apply pair_inj in H; destruct H; subst m; clear - Hm; intuition discriminate).
    + cbn in Hr. cbn in Hm. destruct Hm as [<-|[<-|[<-|[<-|[]]]]]; cbn [String.eqb Ascii.eqb Bool.eqb andb].
      * rewrite Hc by reflexivity. cbn. clear - Hr. intuition congruence.
      * clear - Hr. intuition congruence.
      * change (6 = x). clear - Hr. intuition congruence.
      * change (17 = x). clear - Hr. intuition congruence.
  - destruct (String.eqb_spec (h_name h) "ipv4") as [E|_]; [exfalso; apply Hw; rewrite E; cbn; tauto|].
    destruct (String.eqb_spec (h_name h) "ipv6") as [E|_]; [exfalso; apply Hw; rewrite E; cbn; tauto|]. cbn [andb].
    pose proof ethertypes_chk as HE. rewrite forallb_forall in HE. specialize (HE _ Hr). cbn [fst snd] in HE. rewrite !andb_true_iff in HE.
    destruct HE as [[HE H0] H1]. apply Z.eqb_eq in HE. apply Z.leb_le in H0. apply Z.ltb_lt in H1. rewrite HE. apply Z.mod_small. auto.
Qed.

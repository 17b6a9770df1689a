(** The match mask of accepted frames (C17, C18, C66). *)

From Verif Require Import PTextIp PTextNum Frame PSer PParse PMatch PFrame PInv PStep PArgs PSoft PFill PGroup PAll PSafe PAssign PImage PSum PEmit SpecFill PCheck PCheck2 PLen PKeep PTwice PCoap SpecLayout PLayout.

(** *** Compared fields lie inside their headers *)
Lemma keeps_field : forall h h' fl', keeps_given h h' -> In fl' (h_fields h') -> exists fl, In fl (h_fields h) /\ f_skip fl' = f_skip fl /\ f_width fl' = f_width fl /\ f_off fl' = f_off fl.
Proof.
  intros h h' fl' [_ H] Hin. induction H as [|x y a c [Hxy _] _ IH]; [destruct Hin|]. destruct Hin as [<-|Hin].
  - exists x. rewrite Hxy. cbn. auto.
  - destruct (IH Hin) as [fl [H1 H2]]. exists fl. cbn. auto.
Qed.

(** Every field that is not empty lies inside the header, ignored or not. *)
Definition seated (h : hdr) : Prop := 0 <= h_size h /\ forall f, In f (h_fields h) -> 0 <= f_width f <= 8 * h_size h /\ (f_width f = 0 \/ within h f).

Lemma seated_mask : forall h, seated h -> well_formed_mask h.
Proof. intros h [H1 H2]. split; auto. intros f Hf. destruct (H2 f Hf). auto. Qed.

Lemma keeps_mask : forall h h', keeps_given h h' -> seated h -> seated h'.
Proof.
  intros h h' HK [W1 W2]. destruct (HK) as [HS _]. split; [lia|]. intros fl' Hin. destruct (keeps_field _ _ _ HK Hin) as [fl [F1 [F2 [F3 F4]]]].
  destruct (W2 fl F1) as [W3 W4]. unfold within in *. rewrite F3, F4, HS. auto.
Qed.

Lemma inv_mask : forall t h, In t hdr_tmpls -> inv t h -> seated h.
Proof.
  intros t h Ht I. split; [apply (i_size _ _ I)|]. intros fl Hin. pose proof (inv_within _ _ _ Ht I Hin) as W. split; [|auto]. unfold within in W. lia.
Qed.

Ltac each H := cbn [h_fields In] in H; repeat (destruct H as [<-|H]; [|]); [..|destruct H].

Lemma igmp_mask : forall q r s v, seated (igmp_laid q r s v).
Proof.
  intros q r s v. split; [cbn [igmp_laid h_size]; destruct q, r; lia|]. intros fl Hin. unfold igmp_laid in *. each Hin; unfold within; cbn [f_off f_width f_skip h_size]; destruct q, r; (split; [lia|lia]).
Qed.

Lemma mld_mask : forall q r s v, q && r = false -> seated (mld_laid q r s v).
Proof.
  intros q r s v Hqr. split; [cbn [mld_laid h_size]; destruct q, r; lia|]. intros fl Hin. unfold mld_laid in *. each Hin; unfold within; cbn [f_off f_width f_skip h_size]; destruct q, r; try discriminate Hqr; (split; [lia|lia]).
Qed.

Lemma emitted_mask : forall ws f f' b k h h', serialised ws f f' b -> header_pair f f' k h h' -> sv_whole h = true -> seated h'.
Proof.
  intros ws f f' b k h h' HS [Hk Hk'] Hsv. destruct (serialised_emitting _ _ _ _ _ _ HS Hk) as [t [x E]].
  assert (x = h') by (pose proof (e_dst _ _ _ _ _ _ _ E); congruence). subst x.
  pose proof (e_inv _ _ _ _ _ _ _ E) as I. pose proof (e_tmpl _ _ _ _ _ _ _ E) as Ht.
  assert (Hreg : regular h = true) by (destruct HS as [_ [HS _]]; rewrite Forall_forall in HS; apply HS; eapply nth_error_In; eauto).
  destruct (fill_kind t Ht) as [[Hvf _]|[[_ ->]|[[_ ->]|[[_ ->]|[_ ->]]]]].
  - eapply keeps_mask; [eapply filled_keeps; eauto|eapply inv_mask; eauto].
  - destruct (igmp_keeps _ _ _ _ _ _ E) as [s [w [Eh HK]]]. eapply keeps_mask; [exact HK|apply igmp_mask].
  - destruct (mld_keeps _ _ _ _ _ _ Hreg E) as [s [w [Eh HK]]]. eapply keeps_mask; [exact HK|apply mld_mask].
    assert (Ef : h_fill h = FL_mld) by (rewrite Eh; reflexivity). unfold regular in Hreg. rewrite Ef in Hreg. apply negb_true_iff in Hreg. exact Hreg.
  - destruct (opt_eff _ _ _ _ _ _ E) as [s0 [s1 [w1 [size [v0 [v1 [Eh [W1 [W2 [W3 HO]]]]]]]]]].
    destruct v0 as [num|]; [destruct v1 as [v|]|]; [|subst h'; eapply inv_mask; eauto..].
    destruct HO as [-> [O1 _]]. pose proof (opt_bytes_ok num v) as [_ O2]. split; [cbn [opt_filled h_size]; lia|].
    intros fl Hin. unfold opt_filled in *. each Hin; unfold within; cbn [f_off f_width f_skip h_size]; (split; [lia|right; lia]).
  - destruct (sv_eff _ _ _ _ _ _ E) as [s [v [Eh HO]]]. assert (En : h_name h = "sv"%string) by (rewrite Eh; reflexivity).
    unfold sv_whole in Hsv. rewrite En in Hsv. cbn [String.eqb Ascii.eqb Bool.eqb negb orb] in Hsv. change ["tlv2_type"; "tlv2_len"; "tlv2_mac"]%string with tlv2_fields in Hsv. rewrite Hsv in HO. subst h'. eapply inv_mask; eauto.
Qed.

Lemma serialised_length : forall ws f f' b, serialised ws f f' b -> length (fr_stack f') = length (fr_stack f).
Proof.
  intros ws f f' b [[n H1] [H2 H3]]. pose proof (frame_to_buf_ok false f (accepted_parsed _ _ _ H1) ltac:(auto)) as HF. rewrite H3 in HF. cbn [okp fst] in HF. apply HF.
Qed.

Lemma serialised_mask : forall ws f f' b, serialised ws f f' b -> forallb sv_whole (fr_stack f) = true -> Forall well_formed_mask (fr_stack f').
Proof.
  intros ws f f' b HS Hsv. apply Forall_forall. intros h' Hin. apply In_nth_error in Hin. destruct Hin as [k Hk'].
  destruct (nth_error (fr_stack f) k) as [h|] eqn:Hk.
  - apply seated_mask. eapply emitted_mask; [exact HS|split; eauto|]. rewrite forallb_forall in Hsv. apply Hsv. eapply nth_error_In; eauto.
  - apply nth_error_None in Hk. rewrite <- (serialised_length _ _ _ _ HS) in Hk. apply nth_error_None in Hk. congruence.
Qed.

(** *** When the mask can be built *)
Lemma within_wf : forall h, 0 <= h_size h <= size_limit -> (forall f, In f (h_fields h) -> within h f) -> wf_hdr true h.
Proof.
  intros h Hs H. split; [lia|]. apply Forall_forall. intros f Hf. pose proof (H f Hf) as [W1 [W2 W3]].
  split; [lia|]. intros v Hv. unfold field_source in Hv. destruct (f_skip f); [discriminate|].
  apply some_inj in Hv. subst v.
  pose proof (BIT_TO_BYTE_ge (f_width f) W2). pose proof (BIT_TO_BYTE_ge1 (f_width f) W2).
  split; [auto|split; [auto|split; [rewrite zlen_repeat; lia|split; [apply bytes_ok_repeat; unfold byte_ok; lia|]]]].
  unfold small. rewrite zlen_repeat. destruct (Z.eq_dec (f_width f) 0) as [E|E].
  - rewrite E. change (BIT_TO_BYTE 0) with 1. lia.
  - rewrite BIT_TO_BYTE_pos by lia. unfold size_limit in Hs. lia.
Qed.

Lemma emitted_within : forall ws f f' b k h h' fl, serialised ws f f' b -> header_pair f f' k h h' -> ~ In (h_name h) ["igmp"; "mld"; "sv"]%string -> In fl (h_fields h') -> within h' fl.
Proof.
  intros ws f f' b k h h' fl HS [Hk Hk'] Hn Hfl. destruct (serialised_emitting _ _ _ _ _ _ HS Hk) as [t [x E]].
  assert (x = h') by (pose proof (e_dst _ _ _ _ _ _ _ E); congruence). subst x.
  pose proof (e_inv _ _ _ _ _ _ _ E) as I. pose proof (e_tmpl _ _ _ _ _ _ _ E) as Ht.
  destruct (fill_kind t Ht) as [[Hvf _]|[[_ ->]|[[_ ->]|[[_ ->]|[_ ->]]]]].
  - assert (HK : keeps_given h h') by (eapply filled_keeps; eauto). destruct (keeps_field _ _ _ HK Hfl) as [fl0 [F1 [F2 [F3 F4]]]].
    pose proof (inv_within _ _ _ Ht I F1) as W. destruct HK as [HK _]. unfold within in *. rewrite F3, F4, HK. auto.
  - destruct Hn. rewrite (i_name _ _ I). left. reflexivity.
  - destruct Hn. rewrite (i_name _ _ I). right; left. reflexivity.
  - destruct (opt_eff _ _ _ _ _ _ E) as [s0 [s1 [w1 [size [v0 [v1 [Eh [W1 [W2 [W3 HO]]]]]]]]]].
    destruct v0 as [num|]; [destruct v1 as [v|]|]; [|subst h'; eapply inv_within; eauto..].
    destruct HO as [-> [O1 _]]. pose proof (opt_bytes_ok num v) as [_ O2]. unfold opt_filled in *. each Hfl; unfold within; cbn [f_off f_width f_skip h_size]; lia.
  - destruct Hn. rewrite (i_name _ _ I). right; right; left. reflexivity.
Qed.

Lemma stack_size_each : forall hs h, Forall (fun h => 0 <= h_size h) hs -> In h hs -> h_size h <= stack_size hs.
Proof.
  intros hs h HF Hin. apply in_split in Hin. destruct Hin as [A [B ->]]. rewrite stack_size_app, stack_size_cons. apply Forall_app in HF. destruct HF as [Ha Hb].
  pose proof (stack_size_nonneg _ Ha). pose proof (stack_size_nonneg _ (Forall_inv_tail Hb)). lia.
Qed.

Lemma mask_built : forall ws f f' b, serialised ws f f' b -> (forall h, In h (fr_stack f) -> ~ In (h_name h) ["igmp"; "mld"; "sv"]%string) ->
  exists m, frame_mask_to_buf f' = Ret m.
Proof.
  intros ws f f' b HS Hn. pose proof HS as [_ [_ HB]]. apply frame_to_buf_inv in HB. destruct HB as [_ [_ [_ [HL _]]]].
  assert (HM : Forall well_formed_mask (fr_stack f')).
  { eapply serialised_mask; eauto. apply forallb_forall. intros h Hh. unfold sv_whole. destruct (String.eqb_spec (h_name h) "sv") as [Es|Es]; [|reflexivity]. destruct (Hn h Hh). rewrite Es. right; right; left; reflexivity. }
  assert (HP : Forall (fun h => 0 <= h_size h) (fr_stack f')) by (eapply Forall_impl; [|exact HM]; intros h [H _]; auto).
  assert (HW : Forall (wf_hdr true) (fr_stack f')).
  { apply Forall_forall. intros h' Hin. pose proof (stack_size_each _ _ HP Hin). pose proof (proj1 (Forall_forall _ _) HP h' Hin) as H0. cbn beta in H0. apply within_wf; [lia|].
    intros fl Hfl. pose proof Hin as Hin2. apply In_nth_error in Hin2. destruct Hin2 as [k Hk'].
    destruct (nth_error (fr_stack f) k) as [h|] eqn:Hk.
    - eapply emitted_within; [exact HS|split; eauto| |exact Hfl]. apply Hn. eapply nth_error_In; eauto.
    - apply nth_error_None in Hk. rewrite <- (serialised_length _ _ _ _ HS) in Hk. apply nth_error_None in Hk. congruence. }
  unfold frame_mask_to_buf, len_from. cbn [skipn]. destruct (Z.ltb_spec size_limit (stack_size (fr_stack f'))); [lia|]. cbn [bind].
  pose proof (stack_size_nonneg _ HP) as H0. set (n := stack_size (fr_stack f')) in *.
  assert (Lb0 : zlen (balloc (Z.max n 60)) = Z.max n 60) by (rewrite zlen_balloc; lia).
  assert (exists b0, (if n <? 60 then memset_in (balloc (Z.max n 60)) n 255 (zlen (balloc (Z.max n 60)) - n) else Ret (balloc (Z.max n 60))) = Ret b0 /\ bytes_ok b0 /\ zlen b0 = Z.max n 60) as [b0 [E0 [O0 L0]]].
  { destruct (Z.ltb_spec n 60).
    - destruct (memset_bits (balloc (Z.max n 60)) n (balloc_bytes _) ltac:(lia)) as [b1 [E1 [L1 [O1 _]]]]. exists b1. split; [auto|split; [auto|]]. unfold zlen in *. lia.
    - exists (balloc (Z.max n 60)). split; [auto|split; [apply balloc_bytes|auto]]. }
  rewrite E0. cbn [bind]. apply copy_stack_safe; auto; [lia|]. fold n. lia.
Qed.

(** *** The mask is used whenever a field is ignored *)
Definition unmarked (h : hdr) : Prop := Forall (fun f => f_skip f = false) (h_fields h).
Definition marked (mask : bool) (h : hdr) : Prop := mask = true \/ unmarked h.
Definition neutral (g : field -> field) : Prop := forall f, f_skip f = false -> f_skip (g f) = false.

Lemma neutral_val : forall o, neutral (set_val o). Proof. intros o f H. exact H. Qed.
Lemma neutral_width : forall w, neutral (set_width w). Proof. intros o f H. exact H. Qed.
Lemma neutral_clear : neutral (set_skip false). Proof. intros f H. reflexivity. Qed.

Lemma unmarked_fmod : forall n g h, neutral g -> unmarked h -> unmarked (fmod n g h).
Proof.
  intros n g h Hg H. unfold unmarked, fmod in *. cbn [set_fields h_fields]. induction H as [|f r Hf Hr IH]; cbn [mod_first]; [constructor|].
  destruct (String.eqb n (f_name f)); constructor; auto.
Qed.

Lemma unmarked_mod_nth : forall n g fs, neutral g -> Forall (fun f => f_skip f = false) fs -> Forall (fun f => f_skip f = false) (mod_nth n g fs).
Proof.
  intros n g fs Hg H. unfold mod_nth. destruct (nth_error fs n) as [f|] eqn:E; auto. rewrite Forall_forall in *.
  intros x Hx. apply In_nth_error in Hx. destruct Hx as [i Hi]. rewrite nth_error_upd in Hi.
  assert (Hf : f_skip f = false) by (apply H; eapply nth_error_In; eauto).
  destruct (i =? n)%nat; [destruct (n <? length fs)%nat; [assert (x = g f) by congruence; subst; apply Hg; auto|discriminate]|]. apply H. eapply nth_error_In; eauto.
Qed.

Lemma unmarked_relayout : forall fs o, Forall (fun f => f_skip f = false) fs -> Forall (fun f => f_skip f = false) (fst (relayout fs o)).
Proof.
  induction fs as [|f r IH]; intros o H; cbn [relayout]; [constructor|]. specialize (IH (o + f_width f) (Forall_inv_tail H)).
  destruct (relayout r (o + f_width f)) as [r' o']. cbn [fst] in *. constructor; auto. apply (Forall_inv H).
Qed.

Lemma unmarked_resize : forall n w h, unmarked h -> unmarked (resize_field n w h).
Proof.
  intros n w h H. unfold unmarked, resize_field in *. pose proof (unmarked_relayout _ 0 (unmarked_mod_nth n (set_width w) _ (neutral_width w) H)) as K.
  destruct (relayout (mod_nth n (set_width w) (h_fields h)) 0) as [fs o]. exact K.
Qed.

Lemma unmarked_parser : forall p h s n h1 o, run_parser p h s n = Ret (h1, o) -> unmarked h -> unmarked h1.
Proof.
  intros p h s n h1 o H U. destruct p; cbn [run_parser] in H; try (binv H; apply ret_inj in H; apply pair_inj in H; destruct H; subst; auto; fail).
  - apply ret_inj in H. apply pair_inj in H. destruct H. subst. auto.
  - unfold coap_parse_token in H. binv H. destruct a as [x|]; [|apply ret_inj, pair_inj in H; destruct H; subst; auto].
    destruct (_ || _); apply ret_inj, pair_inj in H; destruct H; subst; auto. apply unmarked_resize. auto.
  - unfold profinet_data_parser in H. binv H. destruct a as [x|]; [|apply ret_inj, pair_inj in H; destruct H; subst; auto].
    destruct (_ <? _); [discriminate|]. apply ret_inj, pair_inj in H. destruct H. subst. apply unmarked_resize. auto.
Qed.

Lemma unmarked_multi : forall p h n ws h1 c, run_multi p h n ws = Ret (h1, c) -> unmarked h -> unmarked h1.
Proof.
  assert (HM : forall h n ws h1 c, field_parse_multi_var_byte h n ws = Ret (h1, c) -> unmarked h -> unmarked h1).
  { intros h n ws h1 c H U. unfold field_parse_multi_var_byte in H. binv H. destruct a as [res b].
    destruct (_ && _); [|apply ret_inj, pair_inj in H; destruct H; subst; auto]. destruct b as [b|]; [|discriminate].
    destruct (_ <? _); [discriminate|]. apply ret_inj, pair_inj in H. destruct H as [<- _]. apply (unmarked_fmod n _ h); [|auto]. intros f Hf. exact Hf. }
  intros p h n ws h1 c H U. destruct p; try discriminate H; cbn [run_multi] in H.
  - unfold coap_parse_option_value in H. binv H. destruct a as [h2 res]. pose proof (HM _ _ _ _ _ E U) as U2.
    destruct (_ && _); [|apply ret_inj, pair_inj in H; destruct H; subst; auto]. binv H. destruct (f_val a) as [v|]; [|discriminate].
    destruct (forallb _ _); apply ret_inj, pair_inj in H; destruct H as [<- _]; auto. apply (unmarked_fmod n _ h2); [|auto]. intros f Hf. exact Hf.
  - unfold coap_parse_parms in H. binv H. destruct a as [res b]. destruct b as [b|]; [|discriminate].
    destruct (_ && _); [|apply ret_inj, pair_inj in H; destruct H; subst; auto]. destruct (_ <? _); [discriminate|].
    apply ret_inj, pair_inj in H. destruct H as [<- _]. apply (unmarked_fmod n _ h); [|auto]. intros f Hf. exact Hf.
Qed.

Lemma marked_loop : forall fuel ws i h pad mask n h' pad' mask', hpf_loop fuel ws i h pad mask = Ret (POk n h' pad' mask') -> marked mask h ->
  marked mask' h' /\ (mask = true -> mask' = true).
Proof.
  induction fuel as [|fuel IH]; intros ws i h pad mask n h' pad' mask' H M; cbn [hpf_loop] in H; [discriminate|].
  assert (Hret : Ret (POk i h pad mask) = Ret (POk n h' pad' mask') -> marked mask' h' /\ (mask = true -> mask' = true)).
  { intros K. assert (h = h' /\ mask = mask') as [<- <-] by (split; congruence). auto. }
  destruct ws as [|w r]; [auto|]. destruct (String.eqb w "help"); [discriminate|].
  destruct (is_ign w && (i =? 0)%nat). { apply IH in H; [|left; auto]. destruct H as [H1 H2]. split; auto. }
  destruct (find_field h w) as [f|]; [|auto]. destruct r as [|v r2]; [discriminate|].
  destruct (is_ign v). { apply IH in H; [|left; auto]. destruct H as [H1 H2]. split; auto. }
  destruct (String.eqb v "help"); [discriminate|]. destruct (is_multi (f_parser f)).
  - binv H. destruct a as [h1 cnt]. destruct (_ && _); [|discriminate]. apply IH in H; [auto|]. destruct M as [M|M]; [left; auto|right].
    apply unmarked_fmod; [apply neutral_clear|]. eapply unmarked_multi; [exact E|]. apply unmarked_fmod; [apply neutral_val|auto].
  - binv H. destruct a as [h1 o]. apply IH in H; [auto|]. destruct M as [M|M]; [left; auto|right].
    apply unmarked_fmod; [apply neutral_clear|]. apply unmarked_fmod; [apply neutral_val|]. eapply unmarked_parser; [exact E|]. apply unmarked_fmod; [apply neutral_val|auto].
Qed.

Lemma marked_hdr : forall ws h pad mask n h' pad' mask', parse_hdr ws h pad mask = Ret (POk n h' pad' mask') -> unmarked h ->
  marked mask' h' /\ (mask = true -> mask' = true).
Proof.
  intros ws h pad mask n h' pad' mask' H U. unfold parse_hdr in H. destruct (h_parser h).
  - eapply marked_loop; [exact H|right; auto].
  - unfold payload_parser in H. binv H. destruct a as [res b]. destruct (res <? 0); [discriminate|]. destruct (res =? 0).
    + assert (h = h' /\ mask = mask') as [<- <-] by (split; congruence). split; [right|]; auto.
    + destruct b as [b|]; [|discriminate]. destruct (_ <? _); [discriminate|]. apply ret_inj in H.
      assert (K : mask = mask') by congruence. subst mask'. split; [right|auto].
      assert (K : h' = set_size (zlen b) (set_fields (mod_nth 0 (fun f => set_val (Some b) (set_width (zlen b * 8) f)) (h_fields h)) h)) by congruence. subst h'.
      unfold unmarked. cbn [set_size set_fields h_fields]. apply unmarked_mod_nth; auto. intros f Hf. exact Hf.
  - unfold padding_parser in H. destruct ws; [discriminate|]. binv H. destruct a; [|discriminate].
    assert (h = h' /\ mask = mask') as [<- <-] by (split; congruence). split; [right|]; auto.
  - discriminate.
Qed.

Lemma templates_unmarked : forall t, In t hdr_tmpls -> unmarked t.
Proof.
  assert (H : forallb (fun t => forallb (fun f => negb (f_skip f)) (h_fields t)) hdr_tmpls = true) by (vm_compute; reflexivity).
  intros t Ht. rewrite forallb_forall in H. specialize (H t Ht). rewrite forallb_forall in H. apply Forall_forall. intros f Hf. specialize (H f Hf). apply negb_true_iff in H. exact H.
Qed.

Lemma marked_frame : forall fuel ws i f n f', argc_frame_loop fuel ws i f = Ret (Some (n, f')) -> Forall (marked (fr_has_mask f)) (fr_stack f) -> Forall (marked (fr_has_mask f')) (fr_stack f').
Proof.
  induction fuel as [|fuel IH]; intros ws i f n f' H M; cbn [argc_frame_loop] in H; [discriminate|].
  destruct ws as [|w r]; [assert (f = f') by congruence; subst; auto|]. destruct (String.eqb w "help"); [discriminate|].
  destruct (find_tmpl w) as [t|] eqn:Et; [|assert (f = f') by congruence; subst; auto]. destruct (_ <=? _); [discriminate|].
  binv H. destruct a as [|m h pad mask]; [discriminate|]. apply IH in H; auto. cbn [fr_stack fr_has_mask].
  assert (Ht : In t hdr_tmpls) by (apply find_some in Et; tauto).
  destruct (marked_hdr _ _ _ _ _ _ _ _ E (templates_unmarked t Ht)) as [K1 K2]. apply Forall_app. split; [|constructor; auto].
  eapply Forall_impl; [|exact M]. intros x [Hx|Hx]; [left; auto|right; auto].
Qed.

Lemma ignored_marks : forall ws n f h fl, argc_frame ws = Ret (Some (n, f)) -> In h (fr_stack f) -> In fl (h_fields h) -> f_skip fl = true -> fr_has_mask f = true.
Proof.
  intros ws n f h fl H Hh Hf Hs. unfold argc_frame in H. destruct (_ <? _); [discriminate|]. apply marked_frame in H; [|constructor].
  rewrite Forall_forall in H. destruct (H h Hh) as [K|K]; auto. unfold unmarked in K. rewrite Forall_forall in K. specialize (K fl Hf). cbn beta in K. congruence.
Qed.

Lemma unignored_hdr : forall fuel ws i h pad mask n h' pad' mask', hpf_loop fuel ws i h pad mask = Ret (POk n h' pad' mask') ->
  Forall (fun w => ~ ignore_word w) ws -> mask' = mask.
Proof.
  induction fuel as [|fuel IH]; intros ws i h pad mask n h' pad' mask' H W; cbn [hpf_loop] in H; [discriminate|].
  destruct ws as [|w r]; [congruence|]. destruct (String.eqb w "help"); [discriminate|]. rewrite (is_ign_false _ (Forall_inv W)) in H. cbn [andb] in H.
  destruct (find_field h w) as [f|]; [|congruence]. destruct r as [|v r2]; [discriminate|].
  pose proof (Forall_inv_tail W) as W1. rewrite (is_ign_false _ (Forall_inv W1)) in H.
  destruct (String.eqb v "help"); [discriminate|]. destruct (is_multi (f_parser f)); binv H; destruct a.
  - destruct (_ && _); [|discriminate]. eapply IH; [exact H|]. rewrite Forall_forall in *. intros x Hx. apply W1. eapply in_skipn; eauto.
  - eapply IH; [exact H|]. apply (Forall_inv_tail W1).
Qed.

Lemma unignored_frame : forall fuel ws i f n f', argc_frame_loop fuel ws i f = Ret (Some (n, f')) -> Forall (fun w => ~ ignore_word w) ws -> fr_has_mask f' = fr_has_mask f.
Proof.
  induction fuel as [|fuel IH]; intros ws i f n f' H W; cbn [argc_frame_loop] in H; [discriminate|].
  destruct ws as [|w r]; [congruence|]. destruct (String.eqb w "help"); [discriminate|].
  destruct (find_tmpl w) as [t|]; [|congruence]. destruct (_ <=? _); [discriminate|]. binv H. destruct a as [|m h pad mask]; [discriminate|].
  pose proof (Forall_inv_tail W) as W1.
  assert (HM : mask = fr_has_mask f).
  { unfold parse_hdr in E. destruct (h_parser t).
    - eapply unignored_hdr; eauto.
    - unfold payload_parser in E. binv E. destruct a as [res b]. destruct (res <? 0); [discriminate|]. destruct (res =? 0); [congruence|]. destruct b; [|discriminate]. destruct (_ <? _); [discriminate|]. congruence.
    - unfold padding_parser in E. destruct r; [discriminate|]. binv E. destruct a; [|discriminate]. congruence.
    - discriminate. }
  apply IH in H; [cbn [fr_has_mask] in H; congruence|]. rewrite Forall_forall in *. intros x Hx. apply W1. eapply in_skipn; eauto.
Qed.

Lemma unignored : forall ws n f, argc_frame ws = Ret (Some (n, f)) -> Forall (fun w => ~ ignore_word w) ws -> fr_has_mask f = false.
Proof.
  intros ws n f H W. unfold argc_frame in H. destruct (_ <? _); [discriminate|]. apply unignored_frame in H; auto.
Qed.

(** *** What the mask says, bit by bit *)
Lemma start_of_end : forall hs k h, Forall (fun h => 0 <= h_size h) hs -> nth_error hs k = Some h -> 0 <= start_of hs k /\ start_of hs k + h_size h <= sum_sizes hs.
Proof.
  induction hs as [|x r IH]; intros k h HF H; [destruct k; discriminate|]. pose proof (Forall_inv_tail HF) as HR. pose proof (Forall_inv HF) as H0.
  assert (HN : 0 <= sum_sizes r). { clear -HR. induction HR; cbn; [lia|]. unfold sum_sizes in *. cbn in *. lia. }
  destruct k as [|k]; unfold start_of in *; cbn [firstn nth_error] in *.
  - assert (x = h) by congruence. subst. unfold sum_sizes in *. cbn in *. lia.
  - destruct (IH k h HR H) as [I1 I2]. unfold sum_sizes in *. cbn in *. lia.
Qed.

Lemma header_of_bit : forall hs i, Forall (fun h => 0 <= h_size h) hs -> 0 <= i < 8 * sum_sizes hs -> exists k h, nth_error hs k = Some h /\ 8 * start_of hs k <= i < 8 * start_of hs k + 8 * h_size h.
Proof.
  induction hs as [|x r IH]; intros i HF H; [unfold sum_sizes in H; cbn in H; lia|]. pose proof (Forall_inv_tail HF) as HR.
  assert (HC : sum_sizes (x :: r) = h_size x + sum_sizes r) by reflexivity.
  destruct (Z.ltb_spec i (8 * h_size x)).
  - exists 0%nat, x. split; [reflexivity|]. change (start_of (x :: r) 0) with 0. lia.
  - destruct (IH (i - 8 * h_size x) HR ltac:(lia)) as [k [h [H1 H2]]]. exists (S k), h. split; [exact H1|].
    assert (start_of (x :: r) (S k) = h_size x + start_of r k) by reflexivity. lia.
Qed.

Lemma nth_error_firstn' : forall A n k (l : list A), (k < n)%nat -> nth_error (firstn n l) k = nth_error l k.
Proof. induction n as [|n IH]; intros k l H; [lia|]. destruct l as [|x l]; [destruct k; reflexivity|]. destruct k as [|k]; [reflexivity|]. cbn. apply IH. lia. Qed.

Lemma counts_mask : forall f m, frame_mask_to_buf f = Ret m -> Forall well_formed_mask (fr_stack f) ->
  forall i, 0 <= i < 8 * Z.of_nat (length m) -> (bit_at m i = true <-> counts f i).
Proof.
  intros f m H W i Hi. destruct (mask_bits _ _ H W) as [M1 [M2 [M3 M4]]].
  assert (HF : Forall (fun h => 0 <= h_size h) (fr_stack f)) by (eapply Forall_impl; [|exact W]; intros h [K _]; auto).
  destruct (Z.leb_spec (8 * sum_sizes (fr_stack f)) i) as [Hs|Hs].
  - split; [intros _; left; auto|intros _; apply M3; lia].
  - destruct (header_of_bit _ _ HF (conj (proj1 Hi) Hs)) as [k [h [K1 K2]]].
    specialize (M4 k h (i - 8 * start_of (fr_stack f) k) K1 ltac:(lia)). replace (8 * start_of (fr_stack f) k + (i - 8 * start_of (fr_stack f) k)) with i in M4 by lia.
    rewrite M4. split.
    + intros [fl [F1 [F2 F3]]]. right. exists k, h, fl. split; [auto|split; [auto|split; [auto|lia]]].
    + intros [C|[k2 [h2 [fl [C1 [C2 [C3 C4]]]]]]]; [lia|].
      assert (Hh : well_formed_mask h2) by (rewrite Forall_forall in W; apply W; eapply nth_error_In; eauto).
      destruct (proj2 Hh fl C2) as [_ HW]. destruct (HW C3) as [HW0|[HW1 [HW2 HW3]]]; [lia|].
      assert (k2 = k).
      { assert (HO : forall a b ha hb, (a < b)%nat -> nth_error (fr_stack f) a = Some ha -> nth_error (fr_stack f) b = Some hb -> start_of (fr_stack f) a + h_size ha <= start_of (fr_stack f) b).
        { clear -HF. intros a b ha hb Hab Ha Hb. unfold start_of. replace (firstn a (fr_stack f)) with (firstn a (firstn b (fr_stack f))) by (rewrite firstn_firstn; f_equal; lia).
          assert (Ha2 : nth_error (firstn b (fr_stack f)) a = Some ha) by (rewrite nth_error_firstn'; auto).
          destruct (start_of_end (firstn b (fr_stack f)) a ha) as [_ L]; [|auto|exact L]. apply Forall_forall. intros x Hx. rewrite Forall_forall in HF. apply HF. rewrite <- (firstn_skipn b). apply in_or_app. auto. }
        destruct (Nat.lt_trichotomy k2 k) as [L|[L|L]]; auto; exfalso.
        - specialize (HO k2 k h2 h L C1 K1). lia.
        - specialize (HO k k2 h h2 L K1 C1). lia. }
      subst k2. assert (h2 = h) by congruence. subst h2. exists fl. split; [auto|split; [auto|lia]].
Qed.

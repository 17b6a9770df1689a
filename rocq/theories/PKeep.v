(** Values given by the user (C27), sizes (C28) and serialising twice (C29). *)

From Verif Require Import PTextIp PTextNum Frame PSer PParse PMatch PFrame PInv PStep PArgs PSoft PFill PGroup PAll PSafe PAssign PImage PSum PEmit SpecFill PCheck PCheck2 PLen.

(** *** What the value fillers keep *)
Lemma put_text_kept : forall n txt k h h' f, put_text n txt k h = Ret h' -> find_field h n = Some f -> f_val f = None -> keeps_given h h'.
Proof.
  intros n txt k h h' f H Hf Hv. unfold put_text in H. binv H. unfold fset in H. binv H. apply ret_inj in H. subst h'.
  eapply keeps_fmod; eauto.
Qed.

Lemma keeps_set_type : forall x h h', keeps_given h h' -> keeps_given h (set_type x h').
Proof. intros x h h' [H1 H2]. split; auto. Qed.

Lemma filled_keeps : forall f f' b k t h h', emitting f f' b k t h h' -> value_fill (h_fill t) = true -> keeps_given h h'.
Proof.
  intros f f' b k t h h' E Hv. destruct (emitting_tail _ _ _ _ _ _ _ E) as [WHB [WB [Wh Wh']]].
  pose proof (e_run _ _ _ _ _ _ _ E) as HR. pose proof (e_types _ _ _ _ _ _ _ E) as HT. pose proof (e_tmpl _ _ _ _ _ _ _ E) as Ht. pose proof (e_inv _ _ _ _ _ _ _ E) as I.
  assert (Hptp : forall n sub, ptp_fill n sub (firstn k (fr_stack f) ++ h :: skipn (S k) (fr_stack f')) (length (firstn k (fr_stack f))) =
                   Ret (firstn k (fr_stack f) ++ h' :: skipn (S k) (fr_stack f')) -> keeps_given h h').
  { intros n sub H. unfold ptp_fill in H. mid H. cbn [bind] in H. destruct (find_field h n) as [fl|] eqn:Ef; [|apply ret_inj in H; apply mid_inj in H; subst; apply keeps_refl].
    destruct (f_val fl) eqn:Ev; [apply ret_inj in H; apply mid_inj in H; subst; apply keeps_refl|]. binv H. binv H. apply ret_inj in H. mid H. apply mid_inj in H. subst a0.
    eapply put_text_kept; eauto. }
  destruct (h_fill t) eqn:Ef; try discriminate Hv; cbn [run_fill] in HR.
  - apply ret_inj in HR. apply mid_inj in HR. subst. apply keeps_refl.
  - apply ether_eff in HR; auto. rewrite HR. destruct (skipn (S k) (fr_stack f')); [apply keeps_refl|apply keeps_setd].
  - destruct (ipv4_eff _ _ _ _ _ Ht Ef I WB HT HR) as [-> _]. unfold ipv4_len. eapply keeps_trans; [|apply keeps_setd]. eapply keeps_trans; apply keeps_setd.
  - rewrite (ipv6_eff _ _ _ _ _ Ht Ef I WB HT HR). eapply keeps_trans; apply keeps_setd.
  - destruct (icmp_eff _ _ _ _ WHB HR) as [[-> _]|[_ [[A' [ll [ph [bb [_ [_ [_ [_ ->]]]]]]]]|[bb [_ [_ ->]]]]]]; [apply keeps_refl|apply keeps_set_type; apply keeps_setd|apply keeps_setd].
  - destruct (udp_eff _ _ _ _ WHB HR) as [[-> _]|[_ [A' [ll [tt [ph [bb [_ [_ [_ [_ ->]]]]]]]]]]]; unfold udp_len; [apply keeps_setd|eapply keeps_trans; apply keeps_setd].
  - eapply Hptp; eauto.
  - eapply Hptp; eauto.
  - unfold coap_fill_defaults in HR. mid HR. cbn [bind] in HR. binv HR. binv HR. destruct (f_val a) eqn:Ea; [apply ret_inj in HR; apply mid_inj in HR; subst; apply keeps_refl|].
    destruct (f_val a0); [|apply ret_inj in HR; apply mid_inj in HR; subst; apply keeps_refl]. destruct (nth_error (h_fields h) 5); [|discriminate].
    binv HR. apply ret_inj in HR. mid HR. apply mid_inj in HR. subst a1. apply fget_inv in E0. eapply put_text_kept; eauto.
Qed.

Lemma keeps_nth : forall h h' j fl, keeps_given h h' -> nth_error (h_fields h) j = Some fl ->
  exists fl', nth_error (h_fields h') j = Some fl' /\ fkeep fl fl'.
Proof.
  intros h h' j fl [_ H] Hj. revert j Hj. induction H as [|x y l m Hxy _ IH]; intros j Hj; [destruct j; discriminate|].
  destruct j as [|j]; cbn in *; [|apply IH; auto]. apply some_inj in Hj. subst. eauto.
Qed.

Lemma keeps_nth_back : forall h h' j fl', keeps_given h h' -> nth_error (h_fields h') j = Some fl' ->
  exists fl, nth_error (h_fields h) j = Some fl /\ fkeep fl fl'.
Proof.
  intros h h' j fl [_ H] Hj. revert j Hj. induction H as [|x y l m Hxy _ IH]; intros j Hj; [destruct j; discriminate|].
  destruct j as [|j]; cbn in *; [|apply IH; auto]. apply some_inj in Hj. subst. eauto.
Qed.

Lemma fkeep_some : forall f f' v, fkeep f f' -> f_val f = Some v -> f' = f.
Proof. intros f f' v [H1 H2] Hv. destruct H2 as [H2|H2]; [congruence|]. rewrite H1, H2. destruct f; reflexivity. Qed.

(** The templates whose filler changes the layout. *)
Definition layout_fill (t : hdr) : bool :=
  match h_fill t with FL_igmp => String.eqb (h_name t) "igmp" | FL_mld => String.eqb (h_name t) "mld" | FL_coap_opt => String.eqb (h_name t) "coap-opt" | FL_sv => String.eqb (h_name t) "sv"
  | _ => negb (existsb (String.eqb (h_name t)) ["igmp"; "mld"; "coap-opt"; "sv"]%string) end.
Lemma layouts_checked : forallb layout_fill hdr_tmpls = true.
Proof. vm_compute. reflexivity. Qed.

Lemma fill_kind : forall t, In t hdr_tmpls ->
  (value_fill (h_fill t) = true /\ existsb (String.eqb (h_name t)) ["igmp"; "mld"; "coap-opt"; "sv"]%string = false) \/
  (h_fill t = FL_igmp /\ t = HDR_IGMP) \/ (h_fill t = FL_mld /\ t = HDR_MLD) \/ (h_fill t = FL_coap_opt /\ t = HDR_COAP_OPTIONS) \/ (h_fill t = FL_sv /\ t = HDR_SV).
Proof.
  intros t Ht. pose proof layouts_checked as H. rewrite forallb_forall in H. specialize (H t Ht). unfold layout_fill in H.
  destruct (h_fill t) eqn:Ef; try (left; split; [reflexivity|apply negb_true_iff; exact H]); right.
  - left. split; auto. apply String.eqb_eq in H. apply (tmpl_by_name t "igmp"); auto.
  - right; left. split; auto. apply String.eqb_eq in H. apply (tmpl_by_name t "mld"); auto.
  - right; right; left. split; auto. apply String.eqb_eq in H. apply (tmpl_by_name t "coap-opt"); auto.
  - right; right; right. split; auto. apply String.eqb_eq in H. apply (tmpl_by_name t "sv"); auto.
Qed.

Lemma sv_eff : forall f f' b k h h', emitting f f' b k HDR_SV h h' ->
  exists s v, h = sv_hdr s v /\ h' = if existsb (given h) tlv2_fields then h else sv_short s v.
Proof.
  intros f f' b k h h' E. pose proof (e_inv _ _ _ _ _ _ _ E) as I. destruct (sv_shape h I) as [s [v Eh]]. exists s, v. split; auto.
  pose proof (e_run _ _ _ _ _ _ _ E) as HR. change (h_fill HDR_SV) with FL_sv in HR. cbn [run_fill] in HR.
  set (A := firstn k (fr_stack f)) in *. set (B := skipn (S k) (fr_stack f')) in *.
  rewrite (sv_default s v) in HR by (rewrite <- Eh; apply nth_error_mid). rewrite <- Eh in HR. apply ret_inj in HR.
  destruct (existsb (given h) tlv2_fields); mid HR; apply mid_inj in HR; auto.
Qed.

Lemma opt_eff : forall f f' b k h h', emitting f f' b k HDR_COAP_OPTIONS h h' ->
  exists s0 s1 w1 size v0 v1, h = opt_hdr s0 s1 w1 size v0 v1 /\ 0 <= w1 /\ w1 mod 8 = 0 /\ 16 + w1 <= 8 * size /\
    match v0, v1 with
    | Some num, Some v => h' = opt_filled s0 s1 w1 (opt_bytes num v) v /\ w1 = 8 * zlen v /\ bytes_ok v /\ bytes_ok num /\ zlen num = 2
    | _, _ => h' = h
    end.
Proof.
  intros f f' b k h h' E. pose proof (e_inv _ _ _ _ _ _ _ E) as I. destruct (opt_shape h I) as [s0 [s1 [w1 [size [v0 [v1 [Eh [W1 [W2 W3]]]]]]]]].
  exists s0, s1, w1, size, v0, v1. split; [auto|]. split; [auto|]. split; [auto|]. split; [auto|].
  pose proof (e_run _ _ _ _ _ _ _ E) as HR. change (h_fill HDR_COAP_OPTIONS) with FL_coap_opt in HR. cbn [run_fill] in HR.
  set (A := firstn k (fr_stack f)) in *. set (B := skipn (S k) (fr_stack f')) in *.
  pose proof (nth_error_mid _ A B h) as Hn.
  destruct v0 as [num|]; [destruct v1 as [v|]|].
  2,3: unfold options_fill_defaults in HR; rewrite (hget_ok _ _ _ Hn) in HR; cbn [bind] in HR; rewrite Eh in HR; cbn [opt_hdr fget find_field find h_fields f_name] in HR;
       cbn in HR; apply ret_inj in HR; apply mid_inj in HR; rewrite Eh, <- HR; reflexivity.
  pose proof (i_val _ _ I) as F. rewrite Eh in F. unfold opt_hdr in F. cbn [h_fields] in F.
  pose proof (Forall_inv F num eq_refl) as [N1 [N2 [N3 N4]]]. pose proof (Forall_inv (Forall_inv_tail F) v eq_refl) as [V1 [V2 [V3 V4]]]. cbn [f_width f_parser] in N1, N4, V1, V4.
  pose proof (proj1 V4 (or_introl eq_refl)) as V5. assert (N5 : 16 = 8 * zlen num) by (apply N4; right; cbn [f_width]; split; [reflexivity|lia]). clear N4. rewrite Eh in Hn. rewrite Eh in HR. rewrite (opt_default _ _ _ _ _ _ _ _ Hn) in HR by lia. apply ret_inj in HR. mid HR. apply mid_inj in HR.
  repeat split; auto. lia.
Qed.

Lemma lone_alone : forall h j fl, alone h j fl -> lone h j fl.
Proof. intros h j fl [H1 H2]. split; auto. intros i g Hi Hg. specialize (H2 i g Hi Hg). unfold overlap in H2. lia. Qed.

Lemma wf_within : forall h j fl v, wf_hdr false h -> nth_error (h_fields h) j = Some fl -> f_val fl = Some v -> within h fl.
Proof.
  intros h j fl v [_ W] Hj Hv. rewrite Forall_forall in W. destruct (W fl ltac:(eapply nth_error_In; eauto)) as [W1 W2].
  destruct (W2 v) as [W3 W4]; [unfold field_source; cbn; rewrite Hv; auto|]. unfold within. intuition lia.
Qed.

Lemma emitted_given : forall f f' b k h' j fl v, frame_to_buf f = Ret (f', b) -> Forall (wf_hdr false) (fr_stack f') ->
  nth_error (fr_stack f') k = Some h' -> lone h' j fl -> f_val fl = Some v ->
  number_at b (8 * start_of (fr_stack f') k + f_off fl) (Z.to_nat (f_width fl)) = positional 256 v mod 2 ^ f_width fl.
Proof.
  intros f f' b k h' j fl v H W Hk HL Hv. rewrite (emitted_lone f f' b k h' j fl); auto.
  - unfold field_data. rewrite Hv. auto.
  - destruct HL as [HL _]. apply (wf_within h' j fl v); auto. rewrite Forall_forall in W. apply W. eapply nth_error_In; eauto.
Qed.

(** C27, headers with one layout *)
Lemma given_emitted : forall ws f f' b k h h' j fl v, serialised ws f f' b -> header_pair f f' k h h' ->
  ~ In (h_name h) ["igmp"; "mld"; "coap-opt"]%string -> alone h j fl -> f_val fl = Some v ->
  number_at b (8 * start_of (fr_stack f') k + f_off fl) (Z.to_nat (f_width fl)) = positional 256 v mod 2 ^ f_width fl.
Proof.
  intros ws f f' b k h h' j fl v HS [Hk Hk'] Hn HA Hv. destruct (serialised_emitting _ _ _ _ _ _ HS Hk) as [t [x E]].
  assert (x = h') by (pose proof (e_dst _ _ _ _ _ _ _ E); congruence). subst x.
  pose proof (e_inv _ _ _ _ _ _ _ E) as I. pose proof (e_tmpl _ _ _ _ _ _ _ E) as Ht.
  apply (emitted_given f f' b k h' j fl v); try apply E; auto.
  destruct HA as [A1 A2].
  destruct (fill_kind t Ht) as [[Hvf _]|[[_ ->]|[[_ ->]|[[_ ->]|[_ ->]]]]].
  - pose proof (filled_keeps _ _ _ _ _ _ _ E Hvf) as HK. destruct (keeps_nth _ _ _ _ HK A1) as [fl' [B1 B2]].
    rewrite (fkeep_some _ _ _ B2 Hv) in B1. split; auto. intros i g Hi Hg. destruct (keeps_nth_back _ _ _ _ HK Hg) as [g0 [G1 G2]].
    specialize (A2 i g0 Hi G1). destruct G2 as [-> _]. unfold overlap in A2. cbn [set_val f_off f_width]. lia.
  - exfalso. apply Hn. left. rewrite (i_name _ _ I). reflexivity.
  - exfalso. apply Hn. right; left. rewrite (i_name _ _ I). reflexivity.
  - exfalso. apply Hn. right; right; left. rewrite (i_name _ _ I). reflexivity.
  - destruct (sv_eff _ _ _ _ _ _ E) as [s [w [Eh Eh']]]. destruct (existsb (given h) tlv2_fields) eqn:Eg.
    + subst h'. split; auto. intros i g Hi Hg. specialize (A2 i g Hi Hg). unfold overlap in A2. lia.
    + assert (HN : w 6%nat = None /\ w 7%nat = None /\ w 8%nat = None).
      { rewrite Eh in Eg. cbn in Eg. destruct (w 6%nat), (w 7%nat), (w 8%nat); try discriminate; auto. }
      destruct HN as [N6 [N7 N8]]. rewrite Eh in A1. rewrite Eh'.
      assert (B1 : nth_error (h_fields (sv_short s w)) j = Some fl).
      { do 11 (destruct j as [|j]; [cbn in A1 |- *; first [exact A1|apply some_inj in A1; rewrite <- A1 in Hv; cbn in Hv; congruence]|]). destruct j; discriminate A1. }
      split; [exact B1|]. intros i g Hi Hg.
      assert (G : exists g0, nth_error (h_fields h) i = Some g0 /\ f_off g = f_off g0 /\ f_width g <= f_width g0).
      { rewrite Eh. do 11 (destruct i as [|i]; [cbn in Hg |- *; apply some_inj in Hg; rewrite <- Hg; eexists; split; [reflexivity|cbn; split; [reflexivity|lia]]|]). destruct i; discriminate Hg. }
      destruct G as [g0 [G1 [G2 G3]]]. specialize (A2 i g0 Hi G1). unfold overlap in A2. lia.
Qed.

(** C27, igmp and mld *)
Lemma put_keeps_given : forall n v h f, find_field h n = Some f -> f_val f = None -> keeps_given h (put n v h).
Proof. intros n v h f H1 H2. eapply keeps_fmod; eauto. Qed.

Lemma group_chksum : forall (G : bool -> bool -> (nat -> bool) -> (nat -> option buf) -> hdr) q r s v (c : bool) x h',
  (exists fc, find_field (G q r s v) "chksum" = Some fc /\ f_val fc = v 2%nat) ->
  (h' = G q r s v \/ (v 2%nat = None /\ h' = put "chksum" x (G q r s v))) -> keeps_given (G q r s v) h'.
Proof.
  intros G q r s v c x h' [fc [F1 F2]] [->|[Hv ->]]; [apply keeps_refl|]. eapply put_keeps_given; eauto. congruence.
Qed.

Lemma laid_emitted : forall f f' b k h' laid j fl v, frame_to_buf f = Ret (f', b) -> Forall (wf_hdr false) (fr_stack f') ->
  nth_error (fr_stack f') k = Some h' -> keeps_given laid h' -> lone_chk (map lay (h_fields laid)) j (f_off fl) (f_width fl) = true ->
  nth_error (h_fields laid) j = Some fl -> f_val fl = Some v ->
  number_at b (8 * start_of (fr_stack f') k + f_off fl) (Z.to_nat (f_width fl)) = positional 256 v mod 2 ^ f_width fl.
Proof.
  intros f f' b k h' laid j fl v H W Hk HK HC Hj Hv. apply (emitted_given f f' b k h' j fl v); auto.
  destruct (lone_chk_spec _ _ _ _ HC) as [g [[L1 L2] [L3 L4]]]. assert (g = fl) by congruence. subst g.
  destruct (keeps_nth _ _ _ _ HK Hj) as [fl' [B1 B2]]. rewrite (fkeep_some _ _ _ B2 Hv) in B1. split; auto.
  intros i g Hi Hg. destruct (keeps_nth_back _ _ _ _ HK Hg) as [g0 [G1 G2]]. specialize (L2 i g0 Hi G1). destruct G2 as [-> _]. exact L2.
Qed.

Ltac group_field Hj Hv Hq Hr Hnot :=
  cbn [nth_error h_fields igmp_hdr mld_hdr] in Hj; apply some_inj in Hj; rewrite <- Hj in *; cbn [f_val] in Hv;
  cbn in Hq; cbn in Hr; try rewrite Hv in Hq; try rewrite Hv in Hr; rewrite ?orb_true_r in Hq; rewrite ?orb_true_r in Hr; cbn [orb] in Hq, Hr;
  eexists; split; [reflexivity|];
  match goal with |- context [igmp_laid ?q ?r] => destruct q, r | |- context [mld_laid ?q ?r] => destruct q, r end;
  try discriminate Hq; try discriminate Hr;
  try (exfalso; apply (Hnot eq_refl); vm_compute; tauto);
  (split; [vm_compute; reflexivity|split; [vm_compute; reflexivity|split; [exact Hv|vm_compute; reflexivity]]]).

Lemma group_emitted : forall ws f f' b k h h' j fl v, serialised ws f f' b -> header_pair f f' k h h' ->
  In (h_name h) ["igmp"; "mld"]%string -> nth_error (h_fields h) j = Some fl -> f_val fl = Some v ->
  (is_report h = true -> ~ In (f_name fl) (not_in_report (h_name h))) ->
  number_at b (8 * start_of (fr_stack f') k + report_place h fl) (Z.to_nat (f_width fl)) = positional 256 v mod 2 ^ f_width fl.
Proof.
  intros ws f f' b k h h' j fl v HS [Hk Hk'] Hn Hj Hv Hnot. destruct (serialised_emitting _ _ _ _ _ _ HS Hk) as [t [x E]].
  assert (x = h') by (pose proof (e_dst _ _ _ _ _ _ _ E); congruence). subst x.
  pose proof (e_inv _ _ _ _ _ _ _ E) as I. pose proof (e_tmpl _ _ _ _ _ _ _ E) as Ht. pose proof (e_run _ _ _ _ _ _ _ E) as HR.
  destruct (emitting_tail _ _ _ _ _ _ _ E) as [WHB _].
  destruct Hn as [Hn|[Hn|[]]].
  - assert (t = HDR_IGMP) by (eapply emitting_name; [exact E|rewrite <- Hn; reflexivity|vm_compute; reflexivity]). subst t.
    change (h_fill HDR_IGMP) with FL_igmp in HR. cbn [run_fill] in HR.
    destruct (igmp_eff _ _ _ _ I WHB HR) as [s [w [q [r [Eh [Hq [Hr [_ Hor]]]]]]]].
    assert (HK : keeps_given (igmp_laid q r s w) h').
    { apply (group_chksum igmp_laid q r s w true (be_bytes 2 (inet_chksum 0 (render (igmp_laid q r s w :: skipn (S k) (fr_stack f')))))).
      - eexists. split; [reflexivity|reflexivity].
      - destruct Hor as [[_ H]|[_ [H1 H]]]; auto. }
    assert (K : exists fl', nth_error (h_fields (igmp_laid q r s w)) j = Some fl' /\ f_off fl' = report_place h fl /\ f_width fl' = f_width fl /\ f_val fl' = Some v /\
        lone_chk (map lay (h_fields (igmp_laid q r s w))) j (f_off fl') (f_width fl') = true).
    { unfold report_place. change (is_report h) with (existsb (given h) report_fields) in *. rewrite <- Hr in *. rewrite <- Hn in Hnot.
      rewrite Eh in Hj, Hq, Hr. clear - Hj Hv Hnot Hq Hr.
      do 11 (destruct j as [|j]; [group_field Hj Hv Hq Hr Hnot|]). destruct j; discriminate Hj. }
    destruct K as [fl' [K1 [K2 [K3 [K4 K5]]]]]. rewrite <- K2, <- K3. eapply laid_emitted; eauto; apply E.
  - assert (t = HDR_MLD) by (eapply emitting_name; [exact E|rewrite <- Hn; reflexivity|vm_compute; reflexivity]). subst t.
    change (h_fill HDR_MLD) with FL_mld in HR. cbn [run_fill] in HR.
    assert (Hreg : regular h = true) by (destruct HS as [_ [HS _]]; rewrite Forall_forall in HS; apply HS; eapply nth_error_In; eauto).
    destruct (mld_eff _ _ _ _ I Hreg WHB HR) as [s [w [q [r [Eh [Hq [Hr [_ Hor]]]]]]]].
    assert (HK : keeps_given (mld_laid q r s w) h').
    { assert (exists x, h' = mld_laid q r s w \/ (w 2%nat = None /\ h' = put "chksum" x (mld_laid q r s w))) as [x Hx].
      { destruct Hor as [[_ H]|[_ [H1 [ip [sf [df [sip [dip [bb H]]]]]]]]]; [exists []; auto|]. eexists. right. split; [auto|apply H]. }
      apply (group_chksum mld_laid q r s w true x); [|exact Hx]. eexists. split; [reflexivity|reflexivity]. }
    assert (Hqr : q && r = false).
    { unfold regular in Hreg. rewrite Eh in Hreg at 1. cbn [mld_hdr h_fill] in Hreg. apply negb_true_iff in Hreg. rewrite Hq, Hr. exact Hreg. }
    assert (K : exists fl', nth_error (h_fields (mld_laid q r s w)) j = Some fl' /\ f_off fl' = report_place h fl /\ f_width fl' = f_width fl /\ f_val fl' = Some v /\
        lone_chk (map lay (h_fields (mld_laid q r s w))) j (f_off fl') (f_width fl') = true).
    { unfold report_place. change (is_report h) with (existsb (given h) report_fields) in *. rewrite <- Hr in *. rewrite <- Hn in Hnot.
      rewrite Eh in Hj, Hq, Hr. clear - Hj Hv Hnot Hq Hr.
      do 13 (destruct j as [|j]; [group_field Hj Hv Hq Hr Hnot|]). destruct j; discriminate Hj. }
    destruct K as [fl' [K1 [K2 [K3 [K4 K5]]]]]. rewrite <- K2, <- K3. eapply laid_emitted; eauto; apply E.
Qed.

(** C27, the values themselves *)
Lemma mld_keeps : forall f f' b k h h', regular h = true -> emitting f f' b k HDR_MLD h h' -> exists s v, h = mld_hdr s v /\
  keeps_given (mld_laid (is_query h) (is_report h) s v) h'.
Proof.
  intros f f' b k h h' Hreg E. pose proof (e_inv _ _ _ _ _ _ _ E) as I. pose proof (e_run _ _ _ _ _ _ _ E) as HR.
  destruct (emitting_tail _ _ _ _ _ _ _ E) as [WHB _]. change (h_fill HDR_MLD) with FL_mld in HR. cbn [run_fill] in HR.
  destruct (mld_eff _ _ _ _ I Hreg WHB HR) as [s [w [q [r [Eh [Hq [Hr [_ Hor]]]]]]]]. exists s, w. split; auto.
  change (is_query h) with (existsb (given h) query_fields). change (is_report h) with (existsb (given h) report_fields). rewrite <- Hq, <- Hr.
  assert (exists x, h' = mld_laid q r s w \/ (w 2%nat = None /\ h' = put "chksum" x (mld_laid q r s w))) as [x Hx].
  { destruct Hor as [[_ H]|[_ [H1 [ip [sf [df [sip [dip [bb H]]]]]]]]]; [exists []; auto|]. eexists. right. split; [auto|apply H]. }
  apply (group_chksum mld_laid q r s w true x); [|exact Hx]. eexists. split; [reflexivity|reflexivity].
Qed.

Lemma igmp_keeps : forall f f' b k h h', emitting f f' b k HDR_IGMP h h' -> exists s v, h = igmp_hdr s v /\
  keeps_given (igmp_laid (is_query h) (is_report h) s v) h'.
Proof.
  intros f f' b k h h' E. pose proof (e_inv _ _ _ _ _ _ _ E) as I. pose proof (e_run _ _ _ _ _ _ _ E) as HR.
  destruct (emitting_tail _ _ _ _ _ _ _ E) as [WHB _]. change (h_fill HDR_IGMP) with FL_igmp in HR. cbn [run_fill] in HR.
  destruct (igmp_eff _ _ _ _ I WHB HR) as [s [w [q [r [Eh [Hq [Hr [_ Hor]]]]]]]]. exists s, w. split; auto.
  change (is_query h) with (existsb (given h) query_fields). change (is_report h) with (existsb (given h) report_fields). rewrite <- Hq, <- Hr.
  assert (exists x, h' = igmp_laid q r s w \/ (w 2%nat = None /\ h' = put "chksum" x (igmp_laid q r s w))) as [x Hx].
  { destruct Hor as [[_ H]|[_ [H1 H]]]; [exists []; auto|]. eexists. right. split; [auto|apply H]. }
  apply (group_chksum igmp_laid q r s w true x); [|exact Hx]. eexists. split; [reflexivity|reflexivity].
Qed.

Lemma fkeep_same : forall f f' v, fkeep f f' -> f_val f = Some v -> f_name f' = f_name f /\ f_val f' = Some v.
Proof. intros f f' v H Hv. rewrite (fkeep_some _ _ _ H Hv). auto. Qed.

Lemma given_kept : forall ws f f' b k h h' j fl v, serialised ws f f' b -> header_pair f f' k h h' ->
  h_name h <> "coap-opt"%string -> nth_error (h_fields h) j = Some fl -> f_val fl = Some v ->
  exists fl', nth_error (h_fields h') j = Some fl' /\ f_name fl' = f_name fl /\ f_val fl' = Some v.
Proof.
  intros ws f f' b k h h' j fl v HS [Hk Hk'] Hn Hj Hv. destruct (serialised_emitting _ _ _ _ _ _ HS Hk) as [t [x E]].
  assert (x = h') by (pose proof (e_dst _ _ _ _ _ _ _ E); congruence). subst x.
  pose proof (e_inv _ _ _ _ _ _ _ E) as I. pose proof (e_tmpl _ _ _ _ _ _ _ E) as Ht.
  assert (Hreg : regular h = true) by (destruct HS as [_ [HS _]]; rewrite Forall_forall in HS; apply HS; eapply nth_error_In; eauto).
  assert (HL : forall laid fl1, keeps_given laid h' -> nth_error (h_fields laid) j = Some fl1 -> f_name fl1 = f_name fl -> f_val fl1 = Some v ->
     exists fl', nth_error (h_fields h') j = Some fl' /\ f_name fl' = f_name fl /\ f_val fl' = Some v).
  { intros laid fl1 HK H1 H2 H3. destruct (keeps_nth _ _ _ _ HK H1) as [fl' [B1 B2]]. destruct (fkeep_same _ _ _ B2 H3). exists fl'. split; [auto|split; [congruence|auto]]. }
  destruct (fill_kind t Ht) as [[Hvf _]|[[_ ->]|[[_ ->]|[[_ ->]|[_ ->]]]]].
  - apply (HL h fl); auto. eapply filled_keeps; eauto.
  - destruct (igmp_keeps _ _ _ _ _ _ E) as [s [w [Eh HK]]]. rewrite Eh in Hj.
    do 11 (destruct j as [|j]; [cbn in Hj; apply some_inj in Hj; eapply HL; [exact HK|reflexivity|rewrite <- Hj; reflexivity|rewrite <- Hj in Hv; exact Hv]|]). destruct j; discriminate Hj.
  - destruct (mld_keeps _ _ _ _ _ _ Hreg E) as [s [w [Eh HK]]]. rewrite Eh in Hj.
    do 13 (destruct j as [|j]; [cbn in Hj; apply some_inj in Hj; eapply HL; [exact HK|reflexivity|rewrite <- Hj; reflexivity|rewrite <- Hj in Hv; exact Hv]|]). destruct j; discriminate Hj.
  - exfalso. apply Hn. rewrite (i_name _ _ I). reflexivity.
  - destruct (sv_eff _ _ _ _ _ _ E) as [s [w [Eh Eh']]]. destruct (existsb (given h) tlv2_fields) eqn:Eg; [subst h'; eauto|].
    rewrite Eh in Hj. rewrite Eh'. do 11 (destruct j as [|j]; [cbn in Hj; apply some_inj in Hj; eexists; split; [reflexivity|rewrite <- Hj in *; split; [reflexivity|exact Hv]]|]). destruct j; discriminate Hj.
Qed.

(** *** Sizes (C28) *)
Lemma opt_split_extra : forall x, 0 <= x < 65536 -> zlen (snd (opt_split x)) = option_extra x.
Proof.
  intros x Hx. unfold opt_split, option_extra. destruct (Z.ltb_spec 12 x), (Z.ltb_spec x 13); try lia; [|reflexivity].
  destruct (Z.ltb_spec 268 x), (Z.ltb_spec x 269); try lia; reflexivity.
Qed.

Lemma opt_bytes_len : forall num v, zlen (opt_bytes num v) = 1 + option_extra (u16 (nth 0 num 0 * 256 + nth 1 num 0)) + option_extra (zlen v mod 65536).
Proof.
  intros num v. unfold opt_bytes. pose proof (opt_split_extra (u16 (nth 0 num 0 * 256 + nth 1 num 0)) ltac:(unfold u16; lia)) as H1.
  pose proof (opt_split_extra (u16 (zlen v)) ltac:(unfold u16; lia)) as H2.
  destruct (opt_split (u16 (nth 0 num 0 * 256 + nth 1 num 0))). destruct (opt_split (u16 (zlen v))). cbn [snd] in *. rewrite zlen_cons, zlen_app. unfold u16 in *. lia.
Qed.

Lemma filled_name : forall f f' b k t h h', emitting f f' b k t h h' -> h_name h' = h_name h.
Proof. intros f f' b k t h h' E. destruct (e_filled _ _ _ _ _ _ _ E) as [_ [H _]]. exact H. Qed.


Lemma regular_at : forall ws f f' b k h, serialised ws f f' b -> nth_error (fr_stack f) k = Some h -> regular h = true.
Proof. intros ws f f' b k h [_ [HS _]] Hk. rewrite Forall_forall in HS. apply HS. eapply nth_error_In; eauto. Qed.

Lemma two_elems : forall (l : list Z), zlen l = 2 -> exists x y, l = [x; y].
Proof.
  intros [|x [|y [|z l]]] H; rewrite ?zlen_cons, ?zlen_nil in H; try lia; [eauto|]. pose proof (zlen_nonneg _ l). lia.
Qed.

Lemma filled_size : forall ws f f' b k t h h', serialised ws f f' b -> emitting f f' b k t h h' -> h_size h' = size_after h.
Proof.
  intros ws f f' b k t h h' HS E. pose proof (e_inv _ _ _ _ _ _ _ E) as I. pose proof (e_tmpl _ _ _ _ _ _ _ E) as Ht.
  pose proof (regular_at _ _ _ _ _ _ HS (e_src _ _ _ _ _ _ _ E)) as Hreg.
  destruct (fill_kind t Ht) as [[Hvf Hnm]|[[_ ->]|[[_ ->]|[[_ ->]|[_ ->]]]]].
  - destruct (filled_keeps _ _ _ _ _ _ _ E Hvf) as [-> _]. unfold size_after. rewrite (i_name _ _ I). cbn [existsb] in Hnm. rewrite !orb_false_iff in Hnm.
    destruct Hnm as [-> [-> [-> [-> _]]]]. reflexivity.
  - destruct (igmp_keeps _ _ _ _ _ _ E) as [s [w [Eh [HK _]]]]. rewrite HK. unfold size_after. rewrite (i_name _ _ I). cbn [igmp_laid h_size].
    change (String.eqb (h_name HDR_IGMP) "igmp") with true. cbv iota. destruct (is_query h), (is_report h); reflexivity.
  - destruct (mld_keeps _ _ _ _ _ _ Hreg E) as [s [w [Eh [HK _]]]]. rewrite HK. unfold size_after. rewrite (i_name _ _ I). cbn [mld_laid h_size].
    change (String.eqb (h_name HDR_MLD) "igmp") with false. change (String.eqb (h_name HDR_MLD) "mld") with true. cbv iota.
    unfold regular in Hreg. rewrite (i_fill _ _ I) in Hreg. change (h_fill HDR_MLD) with FL_mld in Hreg. cbv iota in Hreg. apply negb_true_iff in Hreg.
    fold (is_query h) in Hreg. fold (is_report h) in Hreg. destruct (is_query h), (is_report h); try discriminate Hreg; reflexivity.
  - destruct (opt_eff _ _ _ _ _ _ E) as [s0 [s1 [w1 [size [v0 [v1 [Eh [W1 [W2 [W3 H]]]]]]]]]]. unfold size_after. rewrite (i_name _ _ I).
    change (String.eqb (h_name HDR_COAP_OPTIONS) "igmp") with false. change (String.eqb (h_name HDR_COAP_OPTIONS) "mld") with false.
    change (String.eqb (h_name HDR_COAP_OPTIONS) "sv") with false. change (String.eqb (h_name HDR_COAP_OPTIONS) "coap-opt") with true. cbv iota.
    assert (V0 : value_of h "num" = v0) by (rewrite Eh; reflexivity). assert (V1 : value_of h "val" = v1) by (rewrite Eh; reflexivity). rewrite V0, V1.
    destruct v0 as [num|]; [destruct v1 as [v|]|]; try (rewrite H; reflexivity).
    destruct H as [-> [Hw [Hb [Hn Hl]]]]. cbn [opt_filled h_size]. rewrite opt_bytes_len. fold (zlen v).
    destruct (two_elems num Hl) as [x [y ->]]. cbn [nth]. rewrite (positional_be_val [x; y]). unfold be_val. cbn [fold_left]. unfold u16.
    replace ((0 * 256 + x) * 256 + y) with (x * 256 + y) by lia. lia.
  - destruct (sv_eff _ _ _ _ _ _ E) as [s [w [Eh Eh']]]. unfold size_after. rewrite (i_name _ _ I).
    change (String.eqb (h_name HDR_SV) "igmp") with false. change (String.eqb (h_name HDR_SV) "mld") with false. change (String.eqb (h_name HDR_SV) "sv") with true. cbv iota.
    unfold tlv2_fields in Eh'. destruct (existsb (given h) ["tlv2_type"; "tlv2_len"; "tlv2_mac"]%string); rewrite Eh'; [rewrite Eh|]; reflexivity.
Qed.

Lemma nth_ext_map : forall A B (g g' : A -> B) (l l' : list A), length l = length l' ->
  (forall k x, nth_error l k = Some x -> exists x', nth_error l' k = Some x' /\ g' x' = g x) -> map g' l' = map g l.
Proof.
  intros A B g g'. induction l as [|x l IH]; intros [|y l'] HL H; try discriminate; auto. cbn [map]. f_equal.
  - destruct (H 0%nat x eq_refl) as [x' [H1 H2]]. cbn in H1. apply some_inj in H1. congruence.
  - apply IH; [cbn in HL; lia|]. intros k z Hz. apply (H (S k) z). exact Hz.
Qed.

Lemma sizes_after : forall ws f f' b, serialised ws f f' b ->
  map h_name (fr_stack f') = map h_name (fr_stack f) /\ map h_size (fr_stack f') = map size_after (fr_stack f).
Proof.
  intros ws f f' b HS. destruct (fr_stack f) as [|h0 r0] eqn:E0.
  - destruct HS as [[n Ha] [_ HF]]. unfold frame_to_buf in HF. rewrite E0 in HF. cbn [length fill_all bind] in HF. binv HF. binv HF. apply ret_inj in HF. apply pair_inj in HF. destruct HF as [<- _]. split; reflexivity.
  - rewrite <- E0. assert (HL : length (fr_stack f) = length (fr_stack f')).
    { destruct (serialised_emitting _ _ _ _ 0%nat h0 HS) as [t [h' E]]; [rewrite E0; reflexivity|]. symmetry. apply E. }
    split; apply nth_ext_map; auto; intros k x Hx; destruct (serialised_emitting _ _ _ _ _ _ HS Hx) as [t [h' E]]; exists h'; (split; [apply E|]).
    + eapply filled_name; eauto.
    + eapply filled_size; eauto.
Qed.

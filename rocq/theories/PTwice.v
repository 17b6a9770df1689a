(** Serialising twice (C29). *)

From Verif Require Import PTextIp PTextNum Frame PSer PParse PMatch PFrame PInv PStep PArgs PSoft PFill PGroup PAll PSafe PAssign PImage PSum PEmit SpecFill PCheck PCheck2 PLen PKeep.

Lemma given_fget : forall h n, given h n = true -> exists fl v, find_field h n = Some fl /\ fget h n = Ret fl /\ f_val fl = Some v.
Proof.
  intros h n H. unfold given in H. destruct (find_field h n) as [fl|] eqn:E; [|discriminate]. destruct (f_val fl) as [v|] eqn:Ev; [|discriminate].
  exists fl, v. unfold fget. rewrite E. auto.
Qed.

Lemma setd_gives : forall n v h, (exists f, find_field h n = Some f) -> given (setd n v h) n = true.
Proof.
  intros n v h [f Hf]. destruct (given h n) eqn:E; [unfold setd; rewrite E; auto|].
  unfold given. rewrite (setd_find n v h f Hf E). reflexivity.
Qed.

Lemma req_exists : forall t h n w, In t hdr_tmpls -> inv t h -> In (n, w) (req (h_fill t)) -> exists f, find_field h n = Some f.
Proof. intros t h n w Ht I H. destruct (req_get t h n w Ht I H) as [f [Hf _]]. eauto. Qed.

Lemma given_same_find : forall h h' n, find_field h' n = find_field h n -> given h' n = given h n.
Proof. intros h h' n H. unfold given. rewrite H. auto. Qed.

Lemma last_name : forall A' A (ll : hdr), map h_name A' = map h_name (A ++ [ll]) -> exists A2 l2, A' = A2 ++ [l2] /\ h_name l2 = h_name ll.
Proof.
  intros A' A ll H. destruct (snoc_or_nil A') as [->|[A2 [l2 ->]]].
  - rewrite map_app in H. destruct (map h_name A); discriminate.
  - exists A2, l2. split; auto. rewrite !map_app in H. cbn [map] in H. apply app_inj_tail in H. apply H.
Qed.

Lemma tlv_sizes : forallb (fun t => match h_fill t with FL_ptp_tlv => negb (varhdr t) && (4 <=? h_size t) | _ => true end) hdr_tmpls = true.
Proof. vm_compute. reflexivity. Qed.

Lemma refill : forall f f' b k t h h' A, emitting f f' b k t h h' -> value_fill (h_fill t) = true ->
  map h_name A = map h_name (firstn k (fr_stack f)) -> stack_size (h' :: skipn (S k) (fr_stack f')) <= size_limit ->
  run_fill (h_fill t) (A ++ h' :: skipn (S k) (fr_stack f')) (length A) = Ret (A ++ h' :: skipn (S k) (fr_stack f')).
Proof.
  intros f f' b k t h h' A E Hv HA Hlim. destruct (emitting_tail _ _ _ _ _ _ _ E) as [WHB [WB [Wh Wh']]].
  pose proof (e_run _ _ _ _ _ _ _ E) as HR. pose proof (e_types _ _ _ _ _ _ _ E) as HT. pose proof (e_tmpl _ _ _ _ _ _ _ E) as Ht. pose proof (e_inv _ _ _ _ _ _ _ E) as I.
  set (B := skipn (S k) (fr_stack f')) in *. set (A0 := firstn k (fr_stack f)) in *.
  assert (HLen : len_from (A ++ h' :: B) (length A) = Ret (stack_size (h' :: B))).
  { unfold len_from. rewrite skipn_mid. destruct (Z.ltb_spec size_limit (stack_size (h' :: B))); [lia|reflexivity]. }
  assert (Hptp : forall n sub, ptp_fill n sub (A0 ++ h :: B) (length A0) = Ret (A0 ++ h' :: B) -> sub <= h_size h -> 0 <= sub ->
            ptp_fill n sub (A ++ h' :: B) (length A) = Ret (A ++ h' :: B)).
  { intros n sub H Hs Hs0. apply ptp_eff in H; [|auto|lia]. unfold ptp_fill. rewrite hget_mid. cbn [bind].
    destruct (find_field h n) as [fl|] eqn:Ef.
    - assert (G : given h' n = true) by (rewrite H; apply setd_gives; eauto). destruct (given_fget _ _ G) as [fl' [v [F1 [_ F2]]]]. rewrite F1, F2. reflexivity.
    - rewrite setd_missing in H by auto. subst h'. rewrite Ef. reflexivity. }
  destruct (h_fill t) eqn:Ef; try discriminate Hv; cbn [run_fill] in *.
  - reflexivity.
  - unfold ether_type_fill_defaults. rewrite hget_mid, nth_mid_next. cbn [bind]. apply ether_eff in HR; [|auto].
    destruct (req_exists t h "et" 16 Ht I ltac:(rewrite Ef; left; auto)) as [fe He].
    destruct B as [|nx B'] eqn:EB.
    + subst h'. unfold fget. rewrite He. cbn [bind nth_error]. destruct (f_val fe); reflexivity.
    + assert (G : given h' "et" = true) by (rewrite HR; apply setd_gives; eauto). destruct (given_fget _ _ G) as [fl' [v [_ [F1 F2]]]]. rewrite F1. cbn [bind]. rewrite F2. reflexivity.
  - destruct (ipv4_eff _ _ _ _ _ Ht Ef I WB HT HR) as [HE _]. unfold ipv4_len in HE.
    destruct (req_exists t h "proto" 8 Ht I ltac:(rewrite Ef; left; auto)) as [f1 H1].
    destruct (req_exists t h "len" 16 Ht I ltac:(rewrite Ef; right; left; auto)) as [f2 H2].
    destruct (req_exists t h "chksum" 16 Ht I ltac:(rewrite Ef; right; right; left; auto)) as [f3 H3].
    assert (G3 : given h' "chksum" = true) by (rewrite HE; apply setd_gives; exists f3; rewrite !setd_other by discriminate; auto).
    assert (G2 : given h' "len" = true) by (rewrite HE, setd_given by discriminate; apply setd_gives; exists f2; rewrite !setd_other by discriminate; auto).
    assert (G1 : given h' "proto" = true) by (rewrite HE, !setd_given by discriminate; apply setd_gives; exists f1; auto).
    destruct (given_fget _ _ G1) as [g1 [v1 [_ [X1 Y1]]]]. destruct (given_fget _ _ G2) as [g2 [v2 [_ [X2 Y2]]]]. destruct (given_fget _ _ G3) as [g3 [v3 [_ [X3 Y3]]]].
    unfold ipv4_fill_defaults, fill_proto. rewrite hget_mid. cbn [bind]. rewrite X1. cbn [bind]. rewrite Y1. cbn [bind]. rewrite X2. cbn [bind]. rewrite Y2. cbn [bind]. rewrite X3. cbn [bind]. rewrite Y3. cbn [bind].
    rewrite upd_mid. reflexivity.
  - pose proof (ipv6_eff _ _ _ _ _ Ht Ef I WB HT HR) as HE.
    destruct (req_exists t h "next" 8 Ht I ltac:(rewrite Ef; left; auto)) as [f1 H1].
    destruct (req_exists t h "len" 16 Ht I ltac:(rewrite Ef; right; left; auto)) as [f2 H2].
    assert (G2 : given h' "len" = true) by (rewrite HE; apply setd_gives; exists f2; rewrite !setd_other by discriminate; auto).
    assert (G1 : given h' "next" = true) by (rewrite HE, !setd_given by discriminate; apply setd_gives; exists f1; auto).
    destruct (given_fget _ _ G1) as [g1 [v1 [_ [X1 Y1]]]]. destruct (given_fget _ _ G2) as [g2 [v2 [_ [X2 Y2]]]].
    unfold ipv6_fill_defaults, fill_proto. rewrite hget_mid. cbn [bind]. rewrite X1. cbn [bind]. rewrite Y1. cbn [bind]. rewrite X2. cbn [bind]. rewrite Y2. cbn [bind].
    rewrite upd_mid. reflexivity.
  - destruct (req_exists t h "chksum" 16 Ht I ltac:(rewrite Ef; left; auto)) as [f3 H3].
    assert (G3 : given h' "chksum" = true).
    { destruct (icmp_eff _ _ _ _ WHB HR) as [[-> G]|[_ [[A' [ll [ph [bb [_ [_ [_ [_ ->]]]]]]]]|[bb [_ [_ ->]]]]]]; [auto| |apply setd_gives; eauto].
      rewrite (given_same_find (setd "chksum" (be_bytes 2 (inet_chksum 0 bb)) h)) by reflexivity. apply setd_gives. eauto. }
    destruct (given_fget _ _ G3) as [g3 [v3 [_ [X3 Y3]]]]. unfold icmp_fill_defaults. rewrite hget_mid. cbn [bind]. rewrite HLen. cbn [bind]. rewrite X3. cbn [bind]. rewrite Y3. reflexivity.
  - destruct (req_exists t h "chksum" 16 Ht I ltac:(rewrite Ef; left; auto)) as [f3 H3].
    assert (HL : forall x, find_field x "len" = find_field (udp_len h B) "len" ->
       match find_field x "len" with Some l => match f_val l with Some _ => Ret x | None => put_text "len" (fmt_d (stack_size (h' :: B))) 2 x end | None => Ret x end = Ret x).
    { intros x Hx. rewrite Hx. destruct (find_field h "len") as [fl|] eqn:El.
      - assert (G : given (udp_len h B) "len" = true) by (apply setd_gives; eauto). destruct (given_fget _ _ G) as [g [v [X [_ Y]]]]. rewrite X, Y. reflexivity.
      - unfold udp_len. rewrite setd_missing by auto. rewrite El. reflexivity. }
    unfold udp_tcp_fill_defaults. rewrite hget_mid. cbn [bind]. rewrite HLen. cbn [bind].
    destruct (udp_eff _ _ _ _ WHB HR) as [[HE Hor]|[Hg [A' [ll [tt [ph [bb [_ [_ [_ [_ HE]]]]]]]]]]].
    + rewrite HL by (rewrite HE; reflexivity). cbn [bind].
      assert (G : given h' "chksum" = given h "chksum") by (rewrite HE; unfold udp_len; apply setd_given; discriminate).
      assert (X : exists g, fget h' "chksum" = Ret g /\ (given h' "chksum" = true -> f_val g <> None)).
      { unfold fget. rewrite HE. unfold udp_len. rewrite setd_other by discriminate. rewrite H3. exists f3. split; [reflexivity|].
        intros Hx. unfold given in Hx. rewrite setd_other, H3 in Hx by discriminate. destruct (f_val f3); [discriminate|cbn in Hx; discriminate]. }
      destruct X as [g [X1 X2]]. rewrite X1. cbn [bind]. destruct (f_val g) as [vg|] eqn:Evg; [rewrite upd_mid; reflexivity|].
      destruct Hor as [Hor|Hor]; [exfalso; apply X2; congruence|].
      destruct (snoc_or_nil A) as [->|[A2 [l2 ->]]]; [reflexivity|].
      rewrite length_snoc at 1. rewrite hget_last. cbn [bind].
      destruct (snoc_or_nil A0) as [EA|[A3 [l3 EA]]].
      { exfalso. rewrite EA, map_app in HA. destruct (map h_name A2); discriminate. }
      specialize (Hor _ _ EA). rewrite EA in HA. rewrite !map_app in HA. cbn [map] in HA. apply app_inj_tail in HA. destruct HA as [_ HA].
      unfold pseudo_for in Hor. rewrite HA. destruct (String.eqb (h_name l3) "ipv4"); [discriminate|]. destruct (String.eqb (h_name l3) "ipv6"); [discriminate|].
      rewrite upd_mid. reflexivity.
    + rewrite HL by (rewrite HE; rewrite setd_other by discriminate; reflexivity). cbn [bind].
      assert (G : given h' "chksum" = true) by (rewrite HE; apply setd_gives; exists f3; unfold udp_len; rewrite setd_other by discriminate; auto).
      destruct (given_fget _ _ G) as [g3 [v3 [_ [X3 Y3]]]]. rewrite X3. cbn [bind]. rewrite Y3. rewrite upd_mid. reflexivity.
  - apply Hptp; auto; try lia. destruct Wh; auto.
  - apply Hptp; auto; try lia. pose proof tlv_sizes as HC. rewrite forallb_forall in HC. specialize (HC t Ht). rewrite Ef in HC.
    apply andb_true_iff in HC. destruct HC as [C1 C2]. apply negb_true_iff in C1. destruct (inv_layout _ _ I C1) as [_ [_ ->]]. lia.
  - unfold coap_fill_defaults in HR |- *. mid HR. rewrite hget_mid. cbn [bind] in *. binv HR. binv HR. apply fget_inv in E0. apply fget_inv in E1.
    destruct (f_val a) eqn:Ea; [apply ret_inj in HR; apply mid_inj in HR; subst h'; unfold fget; rewrite E0, E1; cbn [bind]; rewrite Ea; reflexivity|].
    destruct (f_val a0) eqn:Ea0; [|apply ret_inj in HR; apply mid_inj in HR; subst h'; unfold fget; rewrite E0, E1; cbn [bind]; rewrite Ea, Ea0; reflexivity].
    destruct (nth_error (h_fields h) 5) as [f5|] eqn:E5; [|discriminate].
    binv HR. apply ret_inj in HR. mid HR. apply mid_inj in HR. subst a1.
    assert (H5 : 0 <= f_width f5 <= 8 * h_size h).
    { destruct Wh as [_ W]. rewrite Forall_forall in W. destruct (W f5 ltac:(eapply nth_error_In; eauto)) as [W1 _]. exact W1. }
    pose proof (i_size _ _ I) as Hsz. pose proof size_limit_val. pose proof (BIT_TO_BYTE_le (f_width f5) ltac:(lia)) as B1. pose proof (BIT_TO_BYTE_ge (f_width f5) ltac:(lia)) as B2.
    assert (HB : 0 <= BIT_TO_BYTE (f_width f5) < 2 ^ 64) by (change (2 ^ 64) with 18446744073709551616; lia).
    apply (put_dec "tkl" _ 1) in E2; [|exact HB|lia].
    assert (T1 : find_field h' "tkl" = Some (set_val (Some (be_bytes (Z.to_nat 1) (BIT_TO_BYTE (f_width f5)))) a)) by (rewrite E2; apply find_field_fmod; auto).
    assert (T2 : find_field h' "token" = Some a0) by (rewrite E2, put_other by discriminate; auto).
    unfold fget. rewrite T1, T2. cbn [bind set_val f_val]. reflexivity.
Qed.

(** *** The whole frame *)

Lemma plain_value : forall t h, In t hdr_tmpls -> inv t h -> repeatable h = true -> value_fill (h_fill t) = true.
Proof.
  intros t h Ht I Hp. unfold repeatable in Hp. rewrite (i_name _ _ I) in Hp.
  destruct (fill_kind t Ht) as [[H _]|[[_ ->]|[[_ ->]|[[_ ->]|[_ ->]]]]]; [auto|discriminate Hp..].
Qed.

Lemma serialise_twice : forall ws f f' b, serialised ws f f' b -> Forall (fun h => repeatable h = true) (fr_stack f) -> frame_to_buf f' = Ret (f', b).
Proof.
  intros ws f f' b HS HP. pose proof HS as [_ [_ HF]]. destruct (frame_to_buf_inv _ _ _ HF) as [_ [H2 [H3 [H4 H5]]]].
  assert (HW : Forall (wf_hdr false) (fr_stack f')).
  { destruct (fr_stack f) as [|h0 r0] eqn:E0.
    - pose proof (sizes_after _ _ _ _ HS) as [K _]. rewrite E0 in K. destruct (fr_stack f'); [constructor|discriminate].
    - destruct (serialised_emitting _ _ _ _ 0%nat h0 HS) as [t [h' E]]; [rewrite E0; reflexivity|]. apply E. }
  assert (HN : map h_name (fr_stack f') = map h_name (fr_stack f)) by (eapply sizes_after; eauto).
  assert (HL : length (fr_stack f') = length (fr_stack f)) by (rewrite <- (map_length h_name), HN, map_length; auto).
  assert (HA : forall n, (n <= length (fr_stack f'))%nat -> fill_all n (fr_stack f') = Ret (fr_stack f')).
  { induction n as [|n IH]; intros Hn; [reflexivity|]. cbn [fill_all].
    destruct (nth_error (fr_stack f) n) as [h|] eqn:En; [|apply nth_error_None in En; lia].
    destruct (serialised_emitting _ _ _ _ _ _ HS En) as [t [h' E]]. pose proof (e_dst _ _ _ _ _ _ _ E) as Ed. rewrite (hget_ok _ _ _ Ed). cbn [bind].
    assert (Hv : value_fill (h_fill t) = true). { apply (plain_value t h); try apply E. rewrite Forall_forall in HP. apply HP. eapply nth_error_In; eauto. }
    assert (Hfl : h_fill h' = h_fill t). { destruct (e_filled _ _ _ _ _ _ _ E) as [_ [_ [K _]]]. rewrite K. apply (i_fill _ _ (e_inv _ _ _ _ _ _ _ E)). }
    pose proof (em_tail _ _ _ _ _ _ _ E) as Et.
    assert (HR : run_fill (h_fill h') (fr_stack f') n = Ret (fr_stack f')).
    { rewrite Hfl. pose proof (refill f f' b n t h h' (firstn n (fr_stack f')) E Hv) as R.
      rewrite <- Et in R. rewrite firstn_skipn in R. rewrite firstn_length, Nat.min_l in R by lia. apply R.
      - rewrite <- !firstn_map. rewrite HN. reflexivity.
      - pose proof (stack_size_firstn_skipn (fr_stack f') n). pose proof (wf_size (firstn n (fr_stack f')) ltac:(apply wf_firstn; auto)). lia. }
    rewrite HR. cbn [bind]. apply IH. lia. }
  unfold frame_to_buf. rewrite HA by lia. cbn [bind].
  assert (HLen : len_from (fr_stack f') 0 = Ret (stack_size (fr_stack f'))).
  { unfold len_from. cbn [skipn]. destruct (Z.ltb_spec size_limit (stack_size (fr_stack f'))); [lia|reflexivity]. }
  rewrite HLen. cbn [bind]. rewrite H5. cbn [bind]. destruct f'; reflexivity.
Qed.

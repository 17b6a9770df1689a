(** CoAP options (C30) and tokens (C31). *)

From Verif Require Import PTextIp PTextNum PTextHex Frame PSer PParse PMatch PFrame PInv PStep PArgs PSoft PFill PGroup PAll PSafe PAssign PImage PSum PEmit SpecFill PCheck PCheck2 PLen PKeep.

(** *** Options *)
Lemma split_extended : forall x m, 0 <= x < 65536 -> 0 <= fst (opt_split x) < 15 /\ extended (fst (opt_split x)) (snd (opt_split x) ++ m) = Some (x, m).
Proof.
  intros x m H. unfold opt_split. destruct (Z.ltb_spec 12 x).
  - destruct (Z.ltb_spec 268 x); cbn [fst snd app].
    + split; [lia|]. unfold extended. change (14 <? 13) with false. change (14 =? 13) with false. change (14 =? 14) with true. cbv iota.
      assert (E : u16 (x - 269) = x - 269) by (unfold u16; lia). rewrite E. rewrite Z.shiftr_div_pow2 by lia. change (2 ^ 8) with 256.
      change 255 with (Z.ones 8). rewrite Z.land_ones by lia. change (2 ^ 8) with 256. repeat f_equal. lia.
    + split; [lia|]. unfold extended. change (13 <? 13) with false. change (13 =? 13) with true. cbv iota. unfold u8. repeat f_equal. lia.
  - cbn [fst snd app]. split; [lia|]. unfold extended. destruct (Z.ltb_spec x 13); [auto|lia].
Qed.

Lemma nibbles : forall a b, 0 <= a < 16 -> 0 <= b < 16 -> let x := u8 (Z.lor (u8 (Z.shiftl a 4)) (Z.land b 15)) in x / 16 = a /\ x mod 16 = b.
Proof.
  intros a b Ha Hb. cbv zeta. rewrite Z.shiftl_mul_pow2 by lia. change (2 ^ 4) with 16. change 15 with (Z.ones 4). rewrite Z.land_ones by lia. change (2 ^ 4) with 16.
  rewrite (Z.mod_small b) by lia. assert (E : u8 (a * 16) = 16 * a) by (unfold u8; lia). rewrite E. rewrite lor_16 by lia. unfold u8. lia.
Qed.

Lemma decode_bytes : forall num v r, zlen num = 2 -> bytes_ok num -> zlen v < 65536 ->
  decode_option (opt_bytes num v ++ v ++ r) = Some (positional 256 num, v, r).
Proof.
  intros num v r Hn Ho Hv. destruct (two_elems num Hn) as [x [y ->]]. pose proof (Forall_inv Ho) as Bx. pose proof (Forall_inv (Forall_inv_tail Ho)) as By. unfold byte_ok in Bx, By.
  rewrite positional_be_val. unfold be_val. cbn [fold_left]. unfold opt_bytes. cbn [nth]. pose proof (zlen_nonneg _ v) as Hv0.
  assert (E1 : u16 (x * 256 + y) = x * 256 + y) by (unfold u16; lia). assert (E2 : u16 (zlen v) = zlen v) by (unfold u16; lia). rewrite E1, E2.
  destruct (opt_split (x * 256 + y)) as [dn de] eqn:S1. destruct (opt_split (zlen v)) as [ln le] eqn:S2.
  destruct (split_extended (x * 256 + y) (le ++ v ++ r)) as [A1 A2]; [lia|]. destruct (split_extended (zlen v) (v ++ r)) as [B1 B2]; [lia|].
  rewrite S1 in A1, A2. rewrite S2 in B1, B2. cbn [fst snd] in *.
  cbn [app]. unfold decode_option. destruct (nibbles dn ln ltac:(lia) ltac:(lia)) as [N1 N2]. cbv zeta in N1, N2. rewrite N1, N2.
  rewrite <- app_assoc. rewrite A2, B2. rewrite app_length. unfold zlen. rewrite Nat2Z.inj_add.
  destruct (Z.leb_spec (Z.of_nat (length v)) (Z.of_nat (length v) + Z.of_nat (length r))); [|lia].
  rewrite Nat2Z.id. rewrite firstn_app, Nat.sub_diag, firstn_all. cbn [firstn]. rewrite app_nil_r. rewrite skipn_app, skipn_all, Nat.sub_diag. cbn [skipn app].
  repeat f_equal.
Qed.

Lemma option_decodes : forall ws f f' b k h d v, serialised ws f f' b -> nth_error (fr_stack f) k = Some h -> h_name h = "coap-opt"%string ->
  value_of h "num" = Some d -> value_of h "val" = Some v -> zlen v < 65536 ->
  decode_option (message f' b k) = Some (positional 256 d, v, message f' b (S k)).
Proof.
  intros ws f f' b k h d v HS Hk Hn Hd Hv Hl.
  destruct (named_emitting ws f f' b k "coap-opt" HDR_COAP_OPTIONS HS) as [h0 [h' [E _]]]; [exists h; auto|reflexivity|].
  pose proof (e_src _ _ _ _ _ _ _ E) as Es. assert (h0 = h) by congruence. subst h0.
  destruct (opt_eff _ _ _ _ _ _ E) as [s0 [s1 [w1 [size [v0 [v1 [Eh [W1 [W2 [W3 H]]]]]]]]]].
  assert (V0 : v0 = Some d) by (rewrite <- Hd, Eh; reflexivity). assert (V1 : v1 = Some v) by (rewrite <- Hv, Eh; reflexivity). subst v0 v1.
  destruct H as [Eh' [Hw [Hb [Hdb Hdl]]]]. rewrite (em_message _ _ _ _ _ _ _ E).
  pose proof (e_wf _ _ _ _ _ _ _ E) as W. destruct (wf_firstn _ k W) as [_ Wk]. rewrite (em_tail _ _ _ _ _ _ _ E) in Wk.
  rewrite render_cons by auto. destruct (wf_firstn _ (S k) W) as [_ Wk1].
  assert (Em : message f' b (S k) = render (skipn (S k) (fr_stack f'))) by (unfold message, at_byte, bytes_from; apply (emitted_from f f' b (S k)); [apply E|auto]).
  rewrite Em. destruct (opt_bytes_ok d v) as [O1 O2].
  assert (ER : render [h'] = opt_bytes d v ++ v).
  { rewrite render_bytes.
    - rewrite Eh'. cbn [opt_filled h_fields flat_map]. rewrite app_nil_r. unfold fbytes. cbn [f_width field_data f_val]. rewrite Hw. f_equal.
      + replace (length (opt_bytes d v) - Z.to_nat (8 * zlen (opt_bytes d v) / 8))%nat with 0%nat by (unfold zlen; lia). reflexivity.
      + replace (length v - Z.to_nat (8 * zlen v / 8))%nat with 0%nat by (unfold zlen; lia). reflexivity.
    - apply Forall_inv in Wk. exact Wk.
    - rewrite Eh'. cbn [opt_filled h_fields]. forall_split; cbn [f_width]; lia.
    - rewrite Eh'. cbn [opt_filled h_fields map lay seqok f_off f_width]. lia.
    - rewrite Eh'. unfold sumw. cbn [opt_filled h_fields h_size fold_right f_width]. lia. }
  rewrite ER, <- app_assoc. apply decode_bytes; auto.
Qed.

(** *** Tokens *)
Definition coap_hdr (s : nat -> bool) (w size : Z) (v : nat -> option buf) : hdr :=
  MkHdr "coap" 0 size
    [MkField "ver" (s 0%nat) 2 0 (Some [1]) (v 0%nat) FP_default; MkField "type" (s 1%nat) 2 2 (Some [0]) (v 1%nat) FP_default;
     MkField "tkl" (s 2%nat) 4 4 (Some [0]) (v 2%nat) FP_default; MkField "code" (s 3%nat) 8 8 (Some [0]) (v 3%nat) FP_coap_code;
     MkField "msgid" (s 4%nat) 16 16 (Some [0; 0]) (v 4%nat) FP_default; MkField "token" (s 5%nat) w 32 None (v 5%nat) FP_coap_token]
    FL_coap HP_fields.

Definition skip_nth (fs : list field) (n : nat) : bool := match nth_error fs n with Some f => f_skip f | None => false end.
Definition val_nth (fs : list field) (n : nat) : option buf := match nth_error fs n with Some f => f_val f | None => None end.

Lemma field_sig : forall T f n k x o d p, fsig T f = fsig T (MkField n k x o d None p) ->
  f_name f = n /\ f_parser f = p /\ f_def f = d /\ (isv T f = false -> f_width f = x).
Proof.
  intros T f n k x o d p H. pose proof (fsig_isv _ _ _ H) as B. unfold fsig in H. cbn [f_name f_parser f_def f_width] in H.
  repeat split; try congruence. intros Hv. rewrite Hv in H. rewrite B in Hv. rewrite Hv in H. congruence.
Qed.

Lemma coap_shape : forall h, inv HDR_COAP h -> exists w, h = coap_hdr (skip_nth (h_fields h)) w (h_size h) (val_nth (h_fields h)) /\
  0 <= w /\ w mod 8 = 0 /\ 32 + w <= 8 * h_size h.
Proof.
  intros h I. pose proof (i_sig _ _ I) as HS. destruct (i_var _ _ I eq_refl) as [J1 [J2 J3]].
  pose proof (i_name _ _ I) as E1. pose proof (i_type _ _ I) as E2. pose proof (i_fill _ _ I) as E3. pose proof (i_parser _ _ I) as E4.
  destruct h as [hn hty hs hf hfl hp]. cbn [h_name h_type h_size h_fields h_fill h_parser] in *. clear I.
  destruct hf as [|f0 [|f1 [|f2 [|f3 [|f4 [|f5 [|f6 r]]]]]]]; try discriminate HS. cbn [map HDR_COAP h_fields] in HS.
  set (T := HDR_COAP) in HS.
  assert (A0 : fsig T f0 = fsig T (MkField "ver" false 2 0 (Some [1]) None FP_default)) by exact (f_equal (fun l => nth 0 l (fsig T f0)) HS).
  assert (A1 : fsig T f1 = fsig T (MkField "type" false 2 2 (Some [0]) None FP_default)) by exact (f_equal (fun l => nth 1 l (fsig T f0)) HS).
  assert (A2 : fsig T f2 = fsig T (MkField "tkl" false 4 4 (Some [0]) None FP_default)) by exact (f_equal (fun l => nth 2 l (fsig T f0)) HS).
  assert (A3 : fsig T f3 = fsig T (MkField "code" false 8 8 (Some [0]) None FP_coap_code)) by exact (f_equal (fun l => nth 3 l (fsig T f0)) HS).
  assert (A4 : fsig T f4 = fsig T (MkField "msgid" false 16 16 (Some [0; 0]) None FP_default)) by exact (f_equal (fun l => nth 4 l (fsig T f0)) HS).
  assert (A5 : fsig T f5 = fsig T (MkField "token" false 0 32 None None FP_coap_token)) by exact (f_equal (fun l => nth 5 l (fsig T f0)) HS).
  clear HS.
  apply field_sig in A0. apply field_sig in A1. apply field_sig in A2. apply field_sig in A3. apply field_sig in A4. apply field_sig in A5.
  cbn [map lay seqok] in J1. unfold sumw in J2. cbn [fold_right] in J2.
  destruct f0 as [n0 k0 x0 o0 d0 u0 p0], f1 as [n1 k1 x1 o1 d1 u1 p1], f2 as [n2 k2 x2 o2 d2 u2 p2], f3 as [n3 k3 x3 o3 d3 u3 p3], f4 as [n4 k4 x4 o4 d4 u4 p4], f5 as [n5 k5 x5 o5 d5 u5 p5].
  cbn [f_name f_parser f_def f_width f_off] in *.
  destruct A0 as [-> [-> [-> A0]]], A1 as [-> [-> [-> A1]]], A2 as [-> [-> [-> A2]]], A3 as [-> [-> [-> A3]]], A4 as [-> [-> [-> A4]]], A5 as [-> [-> [-> A5]]].
  specialize (A0 eq_refl). specialize (A1 eq_refl). specialize (A2 eq_refl). specialize (A3 eq_refl). specialize (A4 eq_refl). subst.
  destruct J1 as [-> [_ [-> [_ [-> [_ [-> [_ [-> [_ [-> [L _]]]]]]]]]]]].
  do 5 apply Forall_inv_tail in J3. apply Forall_inv in J3. specialize (J3 eq_refl). cbn [f_width] in J3.
  exists x5. split; [reflexivity|]. lia.
Qed.

Lemma coap_lone : forall s w size v j fl, 0 <= w -> (j = 2 \/ j = 5)%nat -> nth_error (h_fields (coap_hdr s w size v)) j = Some fl -> lone (coap_hdr s w size v) j fl.
Proof.
  intros s w size v j fl Hw Hj Hf. split; [auto|]. intros i g Hi Hg.
  destruct Hj as [->| ->]; cbn in Hf; apply some_inj in Hf; subst fl; cbn [f_off f_width];
    (do 6 (destruct i as [|i]; [cbn in Hg; apply some_inj in Hg; subst g; cbn [f_off f_width]; lia|])); destruct i; discriminate Hg.
Qed.

Lemma token_emitted : forall ws f f' b k h tok, serialised ws f f' b -> nth_error (fr_stack f) k = Some h -> h_name h = "coap"%string ->
  value_of h "token" = Some tok ->
  (1 <= length tok <= 8)%nat /\ slice b (at_byte f' k + 4) (length tok) = tok /\
  (given h "tkl" = false -> field_at f' b k 4 4 = Z.of_nat (length tok)).
Proof.
  intros ws f f' b k h tok HS Hk Hn Ht.
  destruct (named_emitting ws f f' b k "coap" HDR_COAP HS) as [h0 [h' [E _]]]; [exists h; auto|reflexivity|].
  pose proof (e_src _ _ _ _ _ _ _ E) as Es. assert (h0 = h) by congruence. subst h0.
  pose proof (e_inv _ _ _ _ _ _ _ E) as I. destruct (coap_shape h I) as [w [Eh [W1 [W2 W3]]]].
  set (s := skip_nth (h_fields h)) in *. set (v := val_nth (h_fields h)) in *. set (size := h_size h) in *. clearbody s v size.
  assert (V5 : v 5%nat = Some tok) by (rewrite <- Ht, Eh; reflexivity).
  pose proof (i_val _ _ I) as F. rewrite Eh in F. cbn [coap_hdr h_fields] in F. do 5 apply Forall_inv_tail in F. apply Forall_inv in F.
  destruct (F tok) as [_ [Tb [_ [T1 T2]]]]; [rewrite V5; reflexivity|]. specialize (T1 (or_introl eq_refl)). specialize (T2 eq_refl). cbn [f_width] in T1.
  pose proof (e_run _ _ _ _ _ _ _ E) as HR. change (h_fill HDR_COAP) with FL_coap in HR. cbn [run_fill] in HR.
  set (A := firstn k (fr_stack f)) in *. set (B := skipn (S k) (fr_stack f')) in *.
  assert (EH : exists v', h' = coap_hdr s w size v' /\ v' 5%nat = Some tok /\ (given h "tkl" = false -> v' 2%nat = Some [zlen tok])).
  { unfold coap_fill_defaults in HR. rewrite hget_mid in HR. cbn [bind] in HR. rewrite Eh in HR.
    change (fget (coap_hdr s w size v) "tkl") with (Ret (MkField "tkl" (s 2%nat) 4 4 (Some [0]) (v 2%nat) FP_default)) in HR.
    change (fget (coap_hdr s w size v) "token") with (Ret (MkField "token" (s 5%nat) w 32 None (v 5%nat) FP_coap_token)) in HR. cbn [bind f_val] in HR.
    rewrite V5 in HR. destruct (v 2%nat) as [y|] eqn:V2.
    - apply ret_inj in HR. apply mid_inj in HR. exists v. split; [congruence|]. split; [auto|]. intros G. rewrite Eh in G. unfold given in G. cbn in G. rewrite V2 in G. discriminate.
    - change (nth_error (h_fields (coap_hdr s w size v)) 5) with (Some (MkField "token" (s 5%nat) w 32 None (v 5%nat) FP_coap_token)) in HR. cbn [f_width] in HR.
      binv HR. apply ret_inj in HR. mid HR. apply mid_inj in HR. subst a.
      assert (EB : BIT_TO_BYTE w = zlen tok) by (rewrite BIT_TO_BYTE_pos by lia; lia). rewrite EB in E0.
      apply (put_dec "tkl" _ 1) in E0; [|change (2 ^ 64) with 18446744073709551616; lia|lia].
      exists (fun n => if Nat.eqb n 2 then Some [zlen tok] else v n). split; [|split; [auto|auto]].
      assert (E2 : be_bytes (Z.to_nat 1) (zlen tok) = [zlen tok]).
      { change (Z.to_nat 1) with 1%nat. generalize (zlen tok) T2. intros z Hz. cbn [be_bytes app]. f_equal. lia. }
      rewrite E0, E2. reflexivity. }
  destruct EH as [v' [Eh' [V5' V2']]].
  assert (W' : wf_hdr false h') by (pose proof (e_wf _ _ _ _ _ _ _ E) as W; rewrite Forall_forall in W; apply W; eapply nth_error_In; apply E).
  split; [unfold zlen in T2; lia|]. split.
  - pose proof (lone_bytes h' 5 (MkField "token" (s 5%nat) w 32 None (v' 5%nat) FP_coap_token) W') as HL. cbn [f_off f_width] in HL.
    assert (HL2 : lone h' 5 (MkField "token" (s 5%nat) w 32 None (v' 5%nat) FP_coap_token)) by (rewrite Eh'; apply coap_lone; [lia|auto|reflexivity]).
    assert (Hsz : h_size h' = size) by (rewrite Eh'; reflexivity).
    specialize (HL HL2 eq_refl W2 ltac:(lia)). rewrite Hsz in HL. specialize (HL W3).
    change (Z.to_nat (32 / 8)) with 4%nat in HL. replace (Z.to_nat (w / 8)) with (length tok) in HL by (unfold zlen in T1; lia).
    rewrite <- (emitted_header f f' b k h') in HL; [|apply E|apply E|apply E]. rewrite slice_slice in HL by (rewrite Hsz; unfold zlen in T1; lia).
    unfold at_byte. rewrite HL. unfold fbytes. cbn [f_width field_data f_val]. rewrite V5'. unfold field_data. cbn [f_val].
    replace (length tok - Z.to_nat (w / 8))%nat with 0%nat by (unfold zlen in T1; lia). reflexivity.
  - intros G. specialize (V2' G).
    assert (HL2 : lone h' 2 (MkField "tkl" (s 2%nat) 4 4 (Some [0]) (v' 2%nat) FP_default)) by (rewrite Eh'; apply coap_lone; [lia|auto|reflexivity]).
    pose proof (emitted_given f f' b k h' 2 _ [zlen tok] (e_buf _ _ _ _ _ _ _ E) (e_wf _ _ _ _ _ _ _ E) (e_dst _ _ _ _ _ _ _ E) HL2 V2') as HN.
    cbn [f_off f_width] in HN. unfold field_at. change (Z.to_nat 4) with 4%nat in HN. rewrite HN. unfold positional. cbn. change (2 ^ 4) with 16. unfold zlen in *. lia.
Qed.

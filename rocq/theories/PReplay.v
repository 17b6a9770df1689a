(** Printed frames can be used as input (C50). *)

From Verif Require Import PTextIp PTextNum PTextHex Frame PBits PSer SpecParse PParse PMatch SpecFrame PFrame PField Exec SpecExec PCmd PPair PExec PRecv.

Definition raw (b : buf) : hdr :=
  set_size (zlen b) (set_fields (mod_nth 0 (fun f => set_val (Some b) (set_width (zlen b * 8) f)) (h_fields HDR_PAYLOAD)) HDR_PAYLOAD).

Lemma hex_words : forall b, Forall is_byte b -> b <> [] -> parse_var_bytes ["hex"; hex_str b]%string = Ret (2, Some b).
Proof.
  intros b Hb Hn. pose proof (pieces_parsed [Hex (hex_str b) b] []) as P. cbn [flat_map piece_words map piece_data concat length app] in P. rewrite app_nil_r in P. apply P; [discriminate| |auto].
  constructor; [|constructor]. split; [apply hex_str_dump; apply is_byte_bytes; auto|auto].
Qed.

Lemma data_parsed : forall b, Forall is_byte b -> b <> [] -> Z.of_nat (length b) <= size_limit ->
  argc_frame ["data"; "hex"; hex_str b]%string = Ret (Some (3%nat, MkFrame [raw b] 0 false)).
Proof.
  intros b Hb Hn Hl. unfold argc_frame. change (FRAME_STACK_MAX <? zlen ["data"; "hex"; hex_str b]%string) with false. cbv iota.
  cbn [length argc_frame_loop]. change (String.eqb "data" "help") with false. cbv iota. replace (find_tmpl "data") with (Some HDR_PAYLOAD) by (vm_compute; reflexivity).
  change (FRAME_STACK_MAX <=? zlen (fr_stack empty_frame)) with false. cbv iota. unfold parse_hdr. replace (h_parser HDR_PAYLOAD) with HP_payload by (vm_compute; reflexivity).
  unfold payload_parser. rewrite (hex_words b Hb Hn). cbn [bind]. change (2 <? 0) with false. change (2 =? 0) with false. cbv iota. unfold zlen at 1. destruct (Z.ltb_spec size_limit (Z.of_nat (length b))); [lia|].
  cbn [bind]. change (Z.to_nat 2) with 2%nat. cbn [skipn]. reflexivity.
Qed.

Lemma bit_at_zeros : forall n i, bit_at (repeat 0 n) i = false.
Proof.
  intros n i. unfold bit_at. replace (nth (Z.to_nat (i / 8)) (repeat 0 n) 0) with 0; [apply Z.testbit_0_l|]. generalize (Z.to_nat (i / 8)). induction n as [|n IH]; intros [|k]; cbn; auto.
Qed.

Lemma data_emitted : forall b, Forall is_byte b -> Z.of_nat (length b) <= size_limit ->
  frame_to_buf (MkFrame [raw b] 0 false) = Ret (MkFrame [raw b] 0 false, b ++ zeros (60 - length b)).
Proof.
  intros b Hb Hl. apply is_byte_bytes in Hb. unfold frame_to_buf. cbn [fr_stack length fill_all]. unfold hget. cbn [nth_error bind]. change (h_fill (raw b)) with FL_none. cbn [run_fill bind].
  unfold len_from. cbn [skipn stack_size]. change (stack_size [raw b]) with (zlen b + 0). fold (zlen b) in Hl. rewrite Z.add_0_r. destruct (Z.ltb_spec size_limit (zlen b)); [lia|]. cbn [bind].
  set (b0 := balloc (Z.max (zlen b) 60)). assert (L0 : zlen b0 = Z.max (zlen b) 60) by (unfold b0; rewrite zlen_balloc; lia). assert (O0 : bytes_ok b0) by apply balloc_bytes.
  set (fl := MkField "hex" false (zlen b * 8) 0 None (Some b) FP_default).
  change (copy_stack [raw b] 0 b0 false) with (b' <- (if zlen b0 <? BIT_TO_BYTE (zlen b * 8) + 0 then Ret b0 else b1 <- hdr_write_field b0 0 fl b;; Ret b1);; Ret b').
  assert (HB : BIT_TO_BYTE (zlen b * 8) <= Z.max 1 (zlen b)). { destruct (Z.eq_dec (zlen b) 0) as [->|Hz]; [vm_compute; discriminate|]. pose proof (zlen_nonneg _ b). rewrite BIT_TO_BYTE_pos by lia. lia. }
  destruct (Z.ltb_spec (zlen b0) (BIT_TO_BYTE (zlen b * 8) + 0)); [lia|]. pose proof (zlen_nonneg _ b) as HZ.
  destruct (write_field_spec b0 0 fl b O0 ltac:(lia) ltac:(cbn; lia) ltac:(cbn [f_width fl]; lia) ltac:(cbn [f_width f_off fl]; lia) ltac:(cbn [f_width fl]; lia) ltac:(unfold small, size_limit in *; lia)) as [b' [E [L [O S]]]].
  rewrite E. cbn [bind]. f_equal. f_equal. apply buf_ext; auto.
  - apply Forall_app. split; [auto|]. apply Forall_forall. intros x Hx. apply repeat_spec in Hx. subst. split; reflexivity.
  - rewrite L, app_length. unfold zeros. rewrite repeat_length. unfold zlen in *. lia.
  - intros i Hi. rewrite S by lia. cbn [f_off f_width fl]. rewrite !Z.mul_0_r, !Z.add_0_l. rewrite Z.sub_0_r. replace (8 * zlen b - zlen b * 8) with 0 by lia. rewrite Z.add_0_r.
    destruct (Z.leb_spec 0 i); [|lia]. destruct (Z.ltb_spec i (zlen b * 8)); cbn [andb].
    + rewrite bit_at_app_l by lia. auto.
    + rewrite bit_at_app_r by lia. unfold b0. rewrite bit_at_balloc. symmetry. unfold zeros. apply bit_at_zeros.
Qed.

Lemma pcap_events_only : forall cs ev, pcap_events cs = Ret ev -> Forall (fun x => match x with EvHex _ _ => False | _ => True end) ev.
Proof.
  induction cs as [|c cs IH]; intros ev H; cbn [pcap_events] in H; [apply ret_inj in H; subst; constructor|]. binv H. binv H. apply ret_inj in H. subst ev. apply Forall_app. split; [|auto].
  destruct (c_type c); try (apply ret_inj in E; subst; constructor; fail). destruct (c_buf c); [|discriminate]. apply ret_inj in E. subst. constructor; [auto|constructor].
Qed.

Lemma hex_events_in : forall cs ev b m, hex_events cs = Ret ev -> In (EvHex b m) ev -> exists c, In c cs /\ c_buf c = Some b.
Proof.
  induction cs as [|c cs IH]; intros ev b m H HI; cbn [hex_events] in H; [apply ret_inj in H; subst; destruct HI|]. binv H. binv H. apply ret_inj in H. subst ev. apply in_app_or in HI. destruct HI as [HI|HI].
  - exists c. split; [left; auto|]. destruct (c_type c); try (apply ret_inj in E; subst; destruct HI; fail). destruct (c_buf c) as [x|]; [|apply ret_inj in E; subst; destruct HI].
    destruct (c_mask c) as [k|]; [destruct (_ <? _); [discriminate|]|]; apply ret_inj in E; subst; destruct HI as [HI|[]]; congruence.
  - destruct (IH _ _ _ E0 HI) as [c' [A B]]. exists c'. split; [right|]; auto.
Qed.

(** C50 *)
Lemma replayed : forall b e, Forall is_byte b -> 60 <= Z.of_nat (length b) <= size_limit ->
  argc_cmds ["hex"; "data"; "hex"; hex_str b]%string e = Ret (0, [EvHex b None]).
Proof.
  intros b e Hb Hl. assert (Hn : b <> []) by (intros ->; cbn in Hl; lia). unfold argc_cmds, parse_cmds, CMD_MAX. 
  assert (HC : argc_cmd ["hex"; "data"; "hex"; hex_str b]%string = Ret (COk 4 (MkCmd CT_hex None None (Some (MkFrame [raw b] 0 false)) (Some b) None false 0))).
  { unfold argc_cmd. change (cmd_word "hex") with (Some CT_hex). cbv iota. unfold cmd_frame. change (String.eqb "data" "name" && _) with false. cbv iota. unfold finish_cmd. rewrite (data_parsed b Hb Hn) by lia. cbn [bind].
    rewrite (data_emitted b Hb) by lia. cbn [bind fr_has_mask]. replace (60 - length b)%nat with 0%nat by lia. cbn [zeros repeat]. unfold zeros. cbn [repeat]. rewrite app_nil_r. reflexivity. }
  change 100%nat with (S (S 98)). cbn [argc_cmds_loop]. rewrite HC. cbn [bind skipn]. destruct e as [o rds]. destruct rds; reflexivity.
Qed.

Lemma printed_frames : forall ws e r ev b m, argc_cmds ws e = Ret (r, ev) -> In (EvHex b m) ev -> Forall is_byte b /\ 60 <= Z.of_nat (length b) <= size_limit.
Proof.
  intros ws e r ev b m H HI. unfold argc_cmds in H. binv H. destruct a as [cs|]; [|assert (ev = []) by congruence; subst; destruct HI]. destruct (parsed_good _ _ E) as [HG HL].
  unfold exec_cmds in H. rewrite pair_cmds_spec in H.
  destruct (undefined_refs cs) as [|u us] eqn:HU.
  2: { exfalso. cbn [length] in H. rewrite Nat2Z.inj_succ in H. destruct (Z.eqb_spec (Z.succ (Z.of_nat (length us))) 0); [lia|]. cbn [negb] in H. apply ret_inj, pair_inj in H. destruct H as [_ <-].
       apply in_app_or in HI. destruct HI as [HI|HI]; [unfold name_events in HI; apply in_flat_map in HI; destruct HI as [c [_ HI]]; destruct (c_type c), (c_buf c), (c_name c); try destruct HI as [HI|HI]; try discriminate; try destruct HI|].
       apply in_map_iff in HI. destruct HI as [x [X _]]. discriminate. }
  assert (HF : Forall2 (filled_in cs) cs (map (paired cs) cs)) by (apply Forall2_map_filled; intros c Hc; apply undefined_nil; auto).
  destruct (filled_all_ready cs cs _ HG HG HF) as [HR HLen]. cbn [length Z.of_nat] in H. change (negb (0 =? 0)) with false in H. cbn iota in H. cbn [map app] in H. binv H. binv H. binv H.
  assert (HX : In (EvHex b m) a0).
  { assert (HE : exists rest, ev = name_events cs ++ a ++ a0 ++ rest /\ ~ In (EvHex b m) rest).
    { destruct (forallb _ a1).
      - binv H. destruct a2 as [rs1 ev4]. rewrite check_all_spec in H. apply ret_inj, pair_inj in H. destruct H as [_ <-]. exists (ev4 ++ flat_map final rs1). split; [auto|].
        intros X. apply in_app_or in X. destruct X as [X|X].
        + destruct (grouping _ (ready_fits _ HR) ltac:(lia)) as [rs [ER GR]]. assert (a1 = rs) by congruence. subst a1.
          destruct (main_sim _ _ _ _ E3 (grouped_homog _ _ GR) ltac:(rewrite (gr_names _ _ GR); apply distinct_nodup)) as [_ [K _]]. unfold known in K. rewrite Forall_forall in K. destruct (K _ X) as [n [Y _]]. discriminate.
        + apply in_flat_map in X. destruct X as [q [_ X]]. unfold final in X. apply in_map_iff in X. destruct X as [c [Y _]]. discriminate.
      - apply ret_inj, pair_inj in H. destruct H as [_ <-]. exists []. rewrite app_nil_r. auto. }
    destruct HE as [rest [-> HE]]. apply in_app_or in HI. destruct HI as [HI|HI].
    { exfalso. unfold name_events in HI; apply in_flat_map in HI; destruct HI as [c [_ HI]]; destruct (c_type c), (c_buf c), (c_name c); try destruct HI as [HI|HI]; try discriminate; try destruct HI. }
    apply in_app_or in HI. destruct HI as [HI|HI].
    { exfalso. pose proof (pcap_events_only _ _ E0) as K. rewrite Forall_forall in K. apply (K _ HI). }
    apply in_app_or in HI. tauto. }
  destruct (hex_events_in _ _ _ _ E1 HX) as [c [C1 C2]]. rewrite Forall_forall in HR. apply (y_bytes _ (HR c C1) b C2).
Qed.

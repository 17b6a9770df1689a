(** Headers given by particular words: CoAP options and tokens, OPC-UA numbers. *)

From Verif Require Import PTextIp PTextNum PTextHex Frame PSer PParse PMatch PFrame PInv PStep PArgs PPrefix PSoft PFill PGroup PAll PSafe PAssign PField PImage PSum PEmit SpecFill PCheck PCheck2 PLen PKeep PCoap PSegs.

Lemma header_words_parse : forall t ws h, In t hdr_tmpls -> h_parser t = HP_fields -> header_words (h_name t :: ws) h ->
  exists pad mask, hdr_parse_fields ws t 0 false = Ret (POk (length ws) h pad mask).
Proof.
  intros t ws h Ht Hp [pad [mask H]].
  assert (Hl : zlen (h_name t :: ws) <= 100).
  { unfold argc_frame, FRAME_STACK_MAX in H. destruct (Z.ltb_spec 100 (zlen (h_name t :: ws))); [discriminate|lia]. }
  rewrite argc_one in H by auto. destruct (hdr_parse_fields ws t 0 false) as [[|n h1 pad1 mask1]|c] eqn:E; try discriminate. cbn [bind] in H.
  pose proof (argc_mono _ _ _ _ _ _ H) as Hm. cbn [length] in Hm.
  cbn [argc_frame_loop] in H. destruct (skipn n ws) as [|w r] eqn:Es.
  - apply ret_inj, some_inj, pair_inj in H. destruct H as [H1 H2]. cbn [length plus] in H1. assert (n = length ws) by lia. assert (h1 = h) by congruence. subst. exists pad1, mask1. auto.
  - destruct (String.eqb w "help"); [discriminate|]. destruct (find_tmpl w) as [t2|].
    + destruct (FRAME_STACK_MAX <=? _); [discriminate|]. destruct (parse_hdr r t2 _ _) as [[|m h2 p2 m2]|c]; try discriminate. cbn [bind] in H.
      exfalso. assert (HS : forall fuel ws i f n f', argc_frame_loop fuel ws i f = Ret (Some (n, f')) -> (length (fr_stack f) <= length (fr_stack f'))%nat).
      { clear. induction fuel as [|fuel IH]; intros ws i f n f' H; [discriminate|]. cbn [argc_frame_loop] in H.
        destruct ws as [|w r]; [assert (f = f') by congruence; subst; lia|]. destruct (String.eqb w "help"); [discriminate|]. destruct (find_tmpl w) as [t|]; [|assert (f = f') by congruence; subst; lia].
        destruct (FRAME_STACK_MAX <=? _); [discriminate|]. destruct (parse_hdr r t _ _) as [[|m h2 p2 m2]|c]; try discriminate. cbn [bind] in H.
        apply IH in H. cbn [fr_stack] in H. rewrite app_length in H. cbn in H. lia. }
      apply HS in H. cbn [fr_stack app length] in H. lia.
    + apply ret_inj, some_inj, pair_inj in H. destruct H as [H1 _]. cbn [length plus] in H1. assert (n = length ws) by lia. subst n. rewrite skipn_all in Es. discriminate.
Qed.

Lemma hpf_step : forall fuel w v r i h pad mask f h1 o, String.eqb w "help" = false -> is_ign w = false -> find_field h w = Some f ->
  is_ign v = false -> String.eqb v "help" = false -> is_multi (f_parser f) = false ->
  run_parser (f_parser f) (fmod w (set_val None) h) v (BIT_TO_BYTE (f_width f)) = Ret (h1, o) ->
  hpf_loop (S fuel) (w :: v :: r) i h pad mask = hpf_loop fuel r (i + 2) (fmod w (set_skip false) (fmod w (set_val o) h1)) pad mask.
Proof. intros. cbn [hpf_loop]. rewrite H, H0. cbn [andb]. rewrite H1, H2, H3, H4, H5. reflexivity. Qed.

Lemma hpf_multi : forall fuel w v r i h pad mask f h1 cnt, String.eqb w "help" = false -> is_ign w = false -> find_field h w = Some f ->
  is_ign v = false -> String.eqb v "help" = false -> is_multi (f_parser f) = true ->
  run_multi (f_parser f) (fmod w (set_val None) h) w (v :: r) = Ret (h1, cnt) -> 0 < cnt <= zlen (v :: r) ->
  hpf_loop (S fuel) (w :: v :: r) i h pad mask = hpf_loop fuel (skipn (Z.to_nat cnt) (v :: r)) (i + 1 + Z.to_nat cnt) (fmod w (set_skip false) h1) pad mask.
Proof.
  intros. cbn [hpf_loop]. rewrite H, H0. cbn [andb]. rewrite H1, H2, H3, H4, H5. cbn [bind].
  replace ((0 <? cnt) && (cnt <=? zlen (v :: r))) with true by lia. reflexivity.
Qed.

Lemma number_word : forall s n, number s n -> 0 <= n < 2 ^ 64 -> is_ign s = false /\ String.eqb s "help" = false.
Proof.
  intros s n H Hn. apply number_radix in H. destruct H as [p [d [-> Hd]]].
  pose proof (parse_bytes_num p d n 1 Hd ltac:(lia) ltac:(lia)) as HP.
  split; [apply is_ign_false; intros [E|E]|apply String.eqb_neq; intros E]; rewrite E in HP; vm_compute in HP; discriminate.
Qed.

Lemma number_bytes : forall s n k, number s n -> 0 <= n < 2 ^ 64 -> 0 <= k <= 8 -> parse_bytes s k = Ret (Some (be_bytes (Z.to_nat k) n)).
Proof. intros s n k H Hn Hk. apply number_radix in H. destruct H as [p [d [-> Hd]]]. apply parse_bytes_num; auto; lia. Qed.

Lemma piece_first : forall p ps, exists w r, flat_map piece_words (p :: ps) = w :: r /\ is_ign w = false /\ String.eqb w "help" = false.
Proof. intros p ps. destruct p; cbn [flat_map piece_words app]; do 2 eexists; (split; [reflexivity|]); split; reflexivity. Qed.

(** *** Options *)
Lemma option_words : forall nt d ps h, number nt d -> 0 <= d < 65536 -> ps <> [] -> Forall piece_ok ps ->
  header_words ("coap-opt" :: "num" :: nt :: "val" :: flat_map piece_words ps)%string h ->
  h_name h = "coap-opt"%string /\ value_of h "num" = Some (be_bytes 2 d) /\ value_of h "val" = Some (option_data (concat (map piece_data ps))).
Proof.
  intros nt d ps h Hn Hd Hne Hok HW.
  assert (Hd64 : 0 <= d < 2 ^ 64) by (change (2 ^ 64) with 18446744073709551616; lia).
  assert (Ht : In HDR_COAP_OPTIONS hdr_tmpls) by (apply (find_tmpl_in "coap-opt"); vm_compute; reflexivity).
  change "coap-opt"%string with (h_name HDR_COAP_OPTIONS) in HW. apply header_words_parse in HW; [|auto|reflexivity]. destruct HW as [pad [mask H]].
  destruct (number_word _ _ Hn Hd64) as [N1 N2]. pose proof (number_bytes _ _ 2 Hn Hd64 ltac:(lia)) as N3.
  destruct ps as [|p ps]; [congruence|]. destruct (piece_first p ps) as [w [r [EW [W1 W2]]]].
  pose proof (pieces_parsed (p :: ps) [] Hne Hok (or_introl eq_refl)) as HP. rewrite app_nil_r in HP. set (v := concat (map piece_data (p :: ps))) in *.
  rewrite EW in H, HP. unfold hdr_parse_fields in H. cbn [length] in H.
  rewrite (hpf_step _ "num" nt _ 0 HDR_COAP_OPTIONS 0 false (MkField "num" false 16 0 None None FP_default) HDR_COAP_OPTIONS (Some (be_bytes 2 d))) in H;
    [|reflexivity|reflexivity|reflexivity|auto|auto|reflexivity|cbn [run_parser f_parser f_width]; change (BIT_TO_BYTE 16) with 2; rewrite N3; reflexivity].
  change (fmod "num" (set_skip false) (fmod "num" (set_val (Some (be_bytes 2 d))) HDR_COAP_OPTIONS)) with (opt_hdr false false 0 2 (Some (be_bytes 2 d)) None) in H.
  set (cnt := Z.of_nat (length (w :: r))) in *.
  assert (Hc : 2 <= cnt). { unfold cnt. rewrite <- EW. cbn [flat_map]. rewrite app_length. pose proof (piece_words_len p). lia. }
  assert (HR : run_multi FP_coap_opt_val (fmod "val" (set_val None) (opt_hdr false false 0 2 (Some (be_bytes 2 d)) None)) "val" (w :: r) =
     if size_limit <? 2 + zlen v then Crash Out_of_model else
     Ret ((if forallb (Z.eqb 0) v then opt_hdr false false 0 (u32 (u32 (2 + zlen v) - zlen v)) (Some (be_bytes 2 d)) (Some [])
           else opt_hdr false false (zlen v * 8) (u32 (2 + zlen v)) (Some (be_bytes 2 d)) (Some v)), cnt)).
  { cbn [run_multi]. unfold coap_parse_option_value, field_parse_multi_var_byte. rewrite HP. cbn [bind]. fold cnt.
    replace ((1 <? cnt) && (cnt <=? zlen (w :: r))) with true by (unfold cnt, zlen in *; lia).
    change (h_size (fmod "val" (set_val None) (opt_hdr false false 0 2 (Some (be_bytes 2 d)) None))) with 2.
    destruct (size_limit <? 2 + zlen v); [reflexivity|]. cbn [bind].
    replace ((1 <? cnt) && (cnt <=? zlen (w :: r))) with true by (unfold cnt, zlen in *; lia).
    generalize (be_bytes 2 d) as num. intros num. generalize (u32 (2 + zlen v)) as X. intros X. clearbody v. clearbody cnt. cbn -[Z.mul Z.sub forallb]. destruct (forallb (Z.eqb 0) v); reflexivity. }
  destruct (size_limit <? 2 + zlen v) eqn:El.
  { exfalso. cbn [hpf_loop] in H. change (String.eqb "val" "help") with false in H. change (is_ign "val") with false in H. cbn [andb] in H.
    change (find_field (opt_hdr false false 0 2 (Some (be_bytes 2 d)) None) "val") with (Some (MkField "val" false 0 16 None None FP_coap_opt_val)) in H.
    cbv iota beta in H. rewrite W1, W2 in H. cbn [f_parser is_multi] in H. rewrite HR in H. discriminate. }
  match type of HR with _ = Ret (?x, _) => rewrite (hpf_multi _ "val" w r _ _ _ _ (MkField "val" false 0 16 None None FP_coap_opt_val) x cnt) in H end;
    [|reflexivity|reflexivity|reflexivity|auto|auto|reflexivity|exact HR|unfold cnt, zlen in *; lia].
  rewrite skipn_all2 in H by (unfold cnt; lia). cbn [hpf_loop] in H.
  unfold option_data. destruct (forallb (Z.eqb 0) v); apply ret_inj in H; assert (EH := f_equal (fun x => match x with POk _ a _ _ => a | PErr => h end) H); cbv beta iota in EH; rewrite <- EH; (split; [reflexivity|split; reflexivity]).
Qed.

(** *** Tokens *)
Lemma token_words : forall tok text h, hexdump tok text -> (1 <= length tok <= 8)%nat ->
  header_words ["coap"; "token"; text]%string h -> h_name h = "coap"%string /\ value_of h "token" = Some tok /\ given h "tkl" = false.
Proof.
  intros tok text h Hx Hl HW.
  assert (Ht : In HDR_COAP hdr_tmpls) by (apply (find_tmpl_in "coap"); vm_compute; reflexivity).
  change "coap"%string with (h_name HDR_COAP) in HW. apply header_words_parse in HW; [|auto|reflexivity]. destruct HW as [pad [mask H]].
  assert (Hne : tok <> []) by (destruct tok; [cbn in Hl; lia|discriminate]).
  pose proof (parse_var_hex_dump_min tok text 1 Hx Hne ltac:(lia)) as HP. replace (Z.to_nat 1 - length tok)%nat with 0%nat in HP by lia. cbn [repeat] in HP. rewrite app_nil_r in HP.
  assert (T1 : is_ign text = false). { apply is_ign_false. intros [->| ->]; vm_compute in HP; discriminate. }
  assert (T2 : String.eqb text "help" = false). { apply String.eqb_neq. intros ->. vm_compute in HP. discriminate. }
  unfold hdr_parse_fields in H. cbn [length] in H.
  rewrite (hpf_step _ "token" text [] 0 HDR_COAP 0 false (MkField "token" false 0 32 None None FP_coap_token) (resize_field 5 (zlen tok * 8) HDR_COAP) (Some tok)) in H;
    [|reflexivity|reflexivity|reflexivity|auto|auto|reflexivity|].
  2:{ cbn [run_parser f_parser]. unfold coap_parse_token. rewrite HP. cbn [bind].
      replace ((8 <? zlen tok) || (zlen tok =? 0)) with false by (unfold zlen; lia). reflexivity. }
  cbn [hpf_loop] in H. apply ret_inj in H. assert (EH := f_equal (fun x => match x with POk _ a _ _ => a | PErr => h end) H). cbv beta iota in EH. rewrite <- EH.
  generalize (zlen tok * 8). intros z. split; [reflexivity|split; reflexivity].
Qed.

Lemma option_roundtrip : forall ws f f' b k h nt d ps, serialised ws f f' b -> nth_error (fr_stack f) k = Some h ->
  header_words ("coap-opt" :: "num" :: nt :: "val" :: flat_map piece_words ps)%string h ->
  number nt d -> 0 <= d < 65536 -> ps <> [] -> Forall piece_ok ps -> Z.of_nat (length (concat (map piece_data ps))) < 65536 ->
  decode_option (message f' b k) = Some (d, option_data (concat (map piece_data ps)), message f' b (S k)).
Proof.
  intros ws f f' b k h nt d ps HS Hk HW Hn Hd Hne Hok Hl. destruct (option_words _ _ _ _ Hn Hd Hne Hok HW) as [Hname [V1 V2]].
  rewrite (option_decodes ws f f' b k h (be_bytes 2 d) (option_data (concat (map piece_data ps)))); auto.
  - do 3 f_equal. rewrite positional_be. change (256 ^ Z.of_nat 2) with 65536. rewrite Z.mod_small; auto.
  - unfold option_data. destruct (forallb _ _); [reflexivity|exact Hl].
Qed.

Lemma token_verbatim : forall ws f f' b k h tok text, serialised ws f f' b -> nth_error (fr_stack f) k = Some h ->
  header_words ["coap"; "token"; text]%string h -> hexdump tok text -> (1 <= length tok <= 8)%nat ->
  slice b (at_byte f' k + 4) (length tok) = tok /\ field_at f' b k 4 4 = Z.of_nat (length tok).
Proof.
  intros ws f f' b k h tok text HS Hk HW Hx Hl. destruct (token_words _ _ _ Hx Hl HW) as [Hname [V1 V2]].
  destruct (token_emitted ws f f' b k h tok HS Hk Hname V1) as [_ [T1 T2]]. auto.
Qed.

Lemma opc_number : forall s n, number s n -> 0 <= n < 2 ^ 64 -> opc_parse_uint16 s = Ret (Some [n mod 256; n / 256 mod 256]).
Proof. intros s n H Hn. unfold opc_parse_uint16. rewrite (number_bytes s n 2 H Hn) by lia. reflexivity. Qed.

Lemma little_endian : forall ws f f' b k h asg fld off nt n, serialised ws f f' b -> nth_error (fr_stack f) k = Some h ->
  header_words ("opc-ua" :: words_of asg)%string h -> (forall m v, In (m, v) asg -> assignable HDR_OPC_UA m v) ->
  In (fld, off) [("pub-id", 2%nat); ("wg-id", 5%nat)]%string ->
  last_given asg fld = Some nt -> number nt n -> 0 <= n < 2 ^ 64 ->
  slice b (at_byte f' k + off) 2 = [n mod 256; n / 256 mod 256].
Proof.
  intros ws f f' b k h asg fld off nt n HS Hk HW Ha Hin Hg Hn Hr.
  assert (Ht : In HDR_OPC_UA hdr_tmpls) by (apply (find_tmpl_in "opc-ua"); vm_compute; reflexivity).
  change "opc-ua"%string with (h_name HDR_OPC_UA) in HW. apply header_words_parse in HW; [|auto|reflexivity]. destruct HW as [pad [mask HW]].
  destruct (assignments HDR_OPC_UA asg [] 0 false Ht Ha I) as [h1 [m1 [P1 [_ [Pn [_ P2]]]]]]. rewrite app_nil_r in P1.
  assert (h1 = h) by congruence. subst h1. assert (Hname : h_name h = "opc-ua"%string) by (rewrite Pn; reflexivity). clear Pn.
  destruct (number_word _ _ Hn Hr) as [N1 _].
  destruct (named_emitting ws f f' b k "opc-ua" HDR_OPC_UA HS) as [h0 [h' [E _]]]; [exists h; auto|reflexivity|].
  pose proof (e_src _ _ _ _ _ _ _ E) as Es. assert (h0 = h) by congruence. subst h0.
  assert (EX : exists j fl, nth_error (h_fields HDR_OPC_UA) j = Some fl /\ f_name fl = fld /\ f_parser fl = FP_opc16 /\ first_namedb (h_fields HDR_OPC_UA) j fld = true /\ at_place HDR_OPC_UA fld (8 * Z.of_nat off) 16 = true /\ (off <= 5)%nat /\ index_of fld (h_fields HDR_OPC_UA) = Some j).
  { destruct Hin as [X|[X|[]]]; injection X as <- <-; [exists 11%nat|exists 17%nat]; eexists; (split; [reflexivity|]); repeat split; try reflexivity; lia. }
  destruct EX as [j [fl [J1 [J2 [J3 [J4 [J5 [J6 J7]]]]]]]]. apply first_namedb_spec in J4.
  destruct (P2 j fl J1) as [fl1 [Q1 [Q2 _]]]. rewrite J2, Hg in Q2. destruct (Q2 J4) as [[Q3 [Q4 [Q5 Q6]]] [[T _]|[_ [T _]]]].
  { apply is_ign_iff in T. congruence. }
  rewrite J3 in T. cbn [field_text] in T. rewrite (opc_number _ _ Hn Hr) in T. apply ret_inj in T. symmetry in T.
  assert (HNC : h_name h <> "coap-opt"%string) by (rewrite Hname; discriminate).
  destruct (given_kept ws f f' b k h h' j fl1 _ HS (conj Hk (e_dst _ _ _ _ _ _ _ E)) HNC Q1 T) as [fl' [K1 [K2 K3]]].
  assert (HF : find_field h' fld = Some fl').
  { destruct (em_layout _ _ _ _ _ _ _ E eq_refl eq_refl) as [L1 [L2 L3]].
    rewrite <- (index_of_names _ _ _ L1) in J7. destruct (index_of_find _ _ _ J7) as [f3 [F3 [F4 _]]]. unfold find_field. rewrite F4. congruence. }
  destruct (em_bytes f f' b k HDR_OPC_UA h h' fld off 2 fl' E eq_refl eq_refl J5) as [B1 B2]; [change (h_size HDR_OPC_UA) with 15; lia|auto|].
  rewrite B1. unfold fbytes. unfold field_data. rewrite K3, B2. reflexivity.
Qed.

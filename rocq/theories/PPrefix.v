(** Parsing looks at the words it consumes only. *)

From Verif Require Import PTextIp Frame PSer SpecParse PParse PMatch SpecFrame PInv PStep PArgs.

Lemma firstn_cons_pos : forall A (x : A) l k, (0 < k)%nat -> firstn k (x :: l) = x :: firstn (k - 1) l.
Proof. intros A x l [|k] H; [lia|]. cbn [firstn Nat.sub]. rewrite Nat.sub_0_r. auto. Qed.

Lemma skipn_firstn_cut : forall A (l : list A) n k, (n <= k)%nat -> skipn n (firstn k l) = firstn (k - n) (skipn n l).
Proof.
  intros A. induction l as [|x l IH]; intros [|n] [|k] H; cbn [firstn skipn Nat.sub]; auto; try lia.
  - rewrite firstn_nil. auto.
  - apply IH. lia.
Qed.

Lemma piece_prefix : forall ws r k, parse_var_bytes_ ws = Ret r -> r <> VErr ->
  match r with VSome n _ => (n <= k)%nat | _ => (0 < k)%nat end ->
  parse_var_bytes_ (firstn k ws) = Ret r.
Proof.
  intros ws r k H Hr Hk. destruct ws as [|w ws]; [rewrite firstn_nil; auto|].
  assert (Hk0 : (0 < k)%nat).
  { destruct r as [| |n b]; auto. destruct (piece_safe (w :: ws)) as [E|[v [E Hv]]]; rewrite E in H; [discriminate|].
    apply ret_inj in H. destruct (Hv n b H) as [_ Hn]. lia. }
  rewrite firstn_cons_pos by auto. unfold parse_var_bytes_ in *.
  destruct (String.eqb w "help"); [auto|].
  destruct (String.eqb w "hex").
  { destruct ws as [|s ws]; [apply ret_inj in H; congruence|]. binv H. apply ret_inj in H.
    destruct a as [b|]; cbn in H; [|congruence]. subst r. rewrite firstn_cons_pos by lia. rewrite E. auto. }
  destruct (String.eqb w "ascii").
  { destruct ws as [|s ws]; [apply ret_inj in H; congruence|]. apply ret_inj in H. subst r. rewrite firstn_cons_pos by lia. auto. }
  destruct (String.eqb w "ascii0").
  { destruct ws as [|s ws]; [apply ret_inj in H; congruence|]. apply ret_inj in H. subst r. rewrite firstn_cons_pos by lia. auto. }
  destruct (String.eqb w "repeat").
  { destruct ws as [|s [|v ws]]; try (apply ret_inj in H; congruence). binv H. apply ret_inj in H.
    destruct a as [b|]; cbn in H; [|congruence]. subst r. rewrite !firstn_cons_pos by lia. rewrite E. auto. }
  destruct (String.eqb w "pattern"); [|auto].
  destruct ws as [|s [|v ws]]; try (apply ret_inj in H; congruence). binv H. apply ret_inj in H.
  destruct a as [b|]; cbn in H; [|congruence]. subst r. rewrite !firstn_cons_pos by lia. rewrite E. auto.
Qed.

Lemma pvb_bounds : forall fuel ws i acc n ob, pvb_loop fuel ws i acc = Ret (n, ob) -> 0 <= n -> Z.of_nat i <= n.
Proof.
  induction fuel as [|fuel IH]; intros ws i acc n ob H Hn; [discriminate|]. cbn [pvb_loop] in H.
  destruct ws as [|w r]; [apply ret_inj, pair_inj in H; lia|]. binv H.
  destruct a as [| |m b]; try (apply ret_inj, pair_inj in H; lia). apply IH in H; lia.
Qed.

Lemma pvb_prefix_loop : forall fuel ws i acc n ob, pvb_loop fuel ws i acc = Ret (n, ob) -> 0 <= n ->
  forall k fuel', n <= Z.of_nat i + Z.of_nat k -> (length (firstn k ws) < fuel')%nat ->
  pvb_loop fuel' (firstn k ws) i acc = Ret (n, ob).
Proof.
  induction fuel as [|fuel IH]; intros ws i acc n ob H Hn k fuel' Hk Hf; [discriminate|].
  destruct fuel' as [|fuel']; [lia|]. cbn [pvb_loop] in *.
  destruct ws as [|w r]; [rewrite firstn_nil; auto|]. binv H.
  destruct a as [| |m b].
  - apply ret_inj, pair_inj in H. lia.
  - destruct k as [|k]; [cbn [firstn]; auto|].
    pose proof (piece_prefix (w :: r) VNone (S k) E ltac:(discriminate) ltac:(cbv beta iota; lia)) as E'. cbn [firstn] in *. rewrite E'. auto.
  - pose proof (pvb_bounds _ _ _ _ _ _ H Hn) as Hb.
    destruct (piece_safe (w :: r)) as [E1|[v [E1 Hv]]]; rewrite E1 in E; [discriminate|]. apply ret_inj in E.
    destruct (Hv m b E) as [_ Hm]. subst v.
    pose proof (piece_prefix (w :: r) (VSome m b) k E1 ltac:(discriminate) ltac:(cbv beta iota; lia)) as E'.
    destruct k as [|k]; [lia|]. cbn [firstn] in *. rewrite E'. cbn [bind].
    change (w :: firstn k r) with (firstn (S k) (w :: r)). rewrite skipn_firstn_cut by lia.
    eapply IH; [exact H|auto|lia|]. cbn [length] in Hf. rewrite firstn_length in Hf |- *. rewrite skipn_length. cbn [length] in *. lia.
Qed.

Lemma pvb_prefix : forall ws n ob k, parse_var_bytes ws = Ret (n, ob) -> 0 <= n -> n <= Z.of_nat k ->
  parse_var_bytes (firstn k ws) = Ret (n, ob).
Proof.
  intros ws n ob k H Hn Hk. unfold parse_var_bytes in *. eapply pvb_prefix_loop; [exact H|auto|lia|lia].
Qed.

Lemma zlen_firstn : forall A (l : list A) k, zlen (firstn k l) = Z.min (Z.of_nat k) (zlen l).
Proof. intros A l k. unfold zlen. rewrite firstn_length. lia. Qed.

Lemma multi_prefix : forall p h n ws h1 cnt k, run_multi p h n ws = Ret (h1, cnt) ->
  0 < cnt -> cnt <= zlen ws -> cnt <= Z.of_nat k -> run_multi p h n (firstn k ws) = Ret (h1, cnt).
Proof.
  intros p h n ws h1 cnt k H Hc Hc2 Hk. destruct p; cbn [run_multi] in *; try discriminate.
  - unfold coap_parse_option_value, field_parse_multi_var_byte in *.
    destruct (parse_var_bytes ws) as [[res ob]|c] eqn:E; cbn [bind] in *; [|discriminate].
    destruct (pvb_safe ws) as [E1|[m [ob' [E1 Hor]]]]; rewrite E1 in E; [discriminate|].
    apply ret_inj, pair_inj in E. destruct E as [-> ->].
    destruct Hor as [[H0 ->]|[H2 [b [-> Hb]]]].
    { replace (1 <? res) with false in H by lia. cbn [andb bind] in H. apply ret_inj, pair_inj in H. lia. }
    replace (1 <? res) with true in H by lia. replace (res <=? zlen ws) with true in H by lia. cbn [andb] in H.
    destruct (size_limit <? h_size h + zlen b) eqn:El; [discriminate|]. cbn [bind] in H.
    replace (1 <? res) with true in H by lia. replace (res <=? zlen ws) with true in H by lia. cbn [andb] in H.
    assert (Hres : res = cnt).
    { binv H. destruct (f_val a) as [v|]; [|discriminate]. destruct (forallb _ v); apply ret_inj, pair_inj in H; lia. }
    subst res. rewrite (pvb_prefix _ _ _ k E1) by lia. cbn [bind].
    rewrite zlen_firstn.
    replace (1 <? cnt) with true by lia. replace (cnt <=? Z.min (Z.of_nat k) (zlen ws)) with true by lia. cbn [andb].
    rewrite El. cbn [bind].
    replace (1 <? cnt) with true by lia. replace (cnt <=? Z.min (Z.of_nat k) (zlen ws)) with true by lia. cbn [andb]. exact H.
  - unfold coap_parse_parms in *.
    destruct (parse_var_bytes ws) as [[res ob]|c] eqn:E; cbn [bind] in *; [|discriminate].
    destruct ob as [b|]; [|discriminate].
    destruct ((1 <? res) && (res <=? zlen ws)) eqn:Er; [|apply ret_inj, pair_inj in H; lia].
    destruct (size_limit <? zlen b) eqn:El; [discriminate|]. pose proof H as H'. apply ret_inj, pair_inj in H. destruct H as [_ ->].
    rewrite (pvb_prefix _ _ _ k E) by lia. cbn [bind]. rewrite zlen_firstn.
    replace (1 <? cnt) with true by lia. replace (cnt <=? Z.min (Z.of_nat k) (zlen ws)) with true by lia. cbn [andb].
    rewrite El. exact H'.
Qed.

Lemma hpf_mono : forall fuel ws i h pad mask n h' pad' mask',
  hpf_loop fuel ws i h pad mask = Ret (POk n h' pad' mask') -> (i <= n)%nat.
Proof.
  induction fuel as [|fuel IH]; intros ws i h pad mask n h' pad' mask' H; [discriminate|]. cbn [hpf_loop] in H.
  destruct ws as [|w r]; [inversion H; lia|].
  destruct (String.eqb w "help"); [discriminate|].
  destruct (is_ign w && (i =? 0)%nat); [apply IH in H; lia|].
  destruct (find_field h w) as [f|]; [|inversion H; lia].
  destruct r as [|v r2]; [discriminate|].
  destruct (is_ign v); [apply IH in H; lia|].
  destruct (String.eqb v "help"); [discriminate|].
  destruct (is_multi (f_parser f)).
  - destruct (run_multi _ _ _ _) as [[h1 cnt]|c]; [|discriminate]. cbn [bind] in H.
    destruct ((0 <? cnt) && (cnt <=? zlen (v :: r2))); [|discriminate]. apply IH in H. lia.
  - destruct (run_parser _ _ _ _) as [[h1 o]|c]; [|discriminate]. cbn [bind] in H. apply IH in H. lia.
Qed.

Lemma hpf_prefix : forall fuel ws i h pad mask n h' pad' mask',
  hpf_loop fuel ws i h pad mask = Ret (POk n h' pad' mask') ->
  forall k fuel', (n <= i + k)%nat -> (length (firstn k ws) < fuel')%nat ->
  hpf_loop fuel' (firstn k ws) i h pad mask = Ret (POk n h' pad' mask').
Proof.
  induction fuel as [|fuel IH]; intros ws i h pad mask n h' pad' mask' H k fuel' Hk Hf; [discriminate|].
  destruct fuel' as [|fuel']; [lia|]. cbn [hpf_loop] in *.
  destruct ws as [|w r]; [rewrite firstn_nil; auto|].
  destruct k as [|k].
  { cbn [firstn]. destruct (String.eqb w "help"); [discriminate|].
    destruct (is_ign w && (i =? 0)%nat); [apply hpf_mono in H; lia|].
    destruct (find_field h w) as [f|]; [|exact H]. exfalso.
    destruct r as [|v r2]; [discriminate|]. destruct (is_ign v); [apply hpf_mono in H; lia|].
    destruct (String.eqb v "help"); [discriminate|].
    destruct (is_multi (f_parser f)).
    - destruct (run_multi _ _ _ _) as [[h1 cnt]|c]; [|discriminate]. cbn [bind] in H.
      destruct ((0 <? cnt) && (cnt <=? zlen (v :: r2))); [|discriminate]. apply hpf_mono in H. lia.
    - destruct (run_parser _ _ _ _) as [[h1 o]|c]; [|discriminate]. cbn [bind] in H. apply hpf_mono in H. lia. }
  cbn [firstn length] in *.
  destruct (String.eqb w "help"); [discriminate|].
  destruct (is_ign w && (i =? 0)%nat); [eapply IH; [exact H|lia|lia]|].
  destruct (find_field h w) as [f|]; [|exact H].
  destruct r as [|v r2]; [discriminate|].
  destruct k as [|k].
  { exfalso. destruct (is_ign v); [apply hpf_mono in H; lia|].
    destruct (String.eqb v "help"); [discriminate|].
    destruct (is_multi (f_parser f)).
    - destruct (run_multi _ _ _ _) as [[h1 cnt]|c]; [|discriminate]. cbn [bind] in H.
      destruct ((0 <? cnt) && (cnt <=? zlen (v :: r2))) eqn:E; [|discriminate]. apply hpf_mono in H. lia.
    - destruct (run_parser _ _ _ _) as [[h1 o]|c]; [|discriminate]. cbn [bind] in H. apply hpf_mono in H. lia. }
  cbn [firstn length] in *.
  destruct (is_ign v); [eapply IH; [exact H|lia|lia]|].
  destruct (String.eqb v "help"); [discriminate|].
  destruct (is_multi (f_parser f)).
  - destruct (run_multi (f_parser f) (fmod w (set_val None) h) w (v :: r2)) as [[h1 cnt]|c] eqn:E; [|discriminate]. cbn [bind] in H.
    destruct ((0 <? cnt) && (cnt <=? zlen (v :: r2))) eqn:Ec; [|discriminate]. pose proof (hpf_mono _ _ _ _ _ _ _ _ _ _ H) as Hm.
    change (v :: firstn k r2) with (firstn (S k) (v :: r2)).
    rewrite (multi_prefix _ _ _ _ _ _ (S k) E) by lia. cbn [bind]. rewrite zlen_firstn.
    replace ((0 <? cnt) && (cnt <=? Z.min (Z.of_nat (S k)) (zlen (v :: r2)))) with true by lia.
    rewrite skipn_firstn_cut by lia. eapply IH; [exact H|lia|].
    rewrite firstn_length, skipn_length. rewrite firstn_length in Hf. cbn [length] in *. lia.
  - destruct (run_parser _ _ _ _) as [[h1 o]|c]; [|discriminate]. cbn [bind] in *. eapply IH; [exact H|lia|lia].
Qed.

Lemma parse_hdr_prefix : forall t ws pad mask n h pad' mask' k,
  parse_hdr ws t pad mask = Ret (POk n h pad' mask') -> (n <= k)%nat ->
  parse_hdr (firstn k ws) t pad mask = Ret (POk n h pad' mask').
Proof.
  intros t ws pad mask n h pad' mask' k H Hk. unfold parse_hdr in *. destruct (h_parser t); try discriminate.
  - unfold hdr_parse_fields in *. eapply hpf_prefix; [exact H|lia|lia].
  - unfold payload_parser in *. destruct (parse_var_bytes ws) as [[res ob]|c] eqn:E; cbn [bind] in *; [|discriminate].
    destruct (res <? 0) eqn:E0; [discriminate|]. destruct (res =? 0) eqn:E1.
    + assert (res = 0) by lia. subst res. rewrite (pvb_prefix _ _ _ k E) by lia. cbn [bind Z.ltb Z.eqb Z.compare]. exact H.
    + destruct ob as [b|]; [|discriminate]. destruct (size_limit <? zlen b) eqn:El; [discriminate|].
      assert (Z.to_nat res = n) by congruence.
      rewrite (pvb_prefix _ _ _ k E) by lia. cbn [bind]. rewrite E0, E1, El. exact H.
  - unfold padding_parser in *. destruct ws as [|w r]; [discriminate|].
    destruct (parse_uint32 w) as [o|] eqn:E; cbn [bind] in *; [|discriminate]. destruct o; [|discriminate].
    assert (n = 1%nat) by congruence. rewrite firstn_cons_pos by lia. rewrite E. exact H.
Qed.

Lemma argc_mono : forall fuel ws i f n f', argc_frame_loop fuel ws i f = Ret (Some (n, f')) -> (i <= n)%nat.
Proof.
  induction fuel as [|fuel IH]; intros ws i f n f' H; [discriminate|]. cbn [argc_frame_loop] in H.
  destruct ws as [|w r]; [inversion H; lia|]. destruct (String.eqb w "help"); [discriminate|].
  destruct (find_tmpl w); [|inversion H; lia]. destruct (FRAME_STACK_MAX <=? _); [discriminate|]. binv H.
  destruct a; [discriminate|]. apply IH in H. lia.
Qed.

Lemma argc_prefix_loop : forall fuel ws i f n f', argc_frame_loop fuel ws i f = Ret (Some (n, f')) ->
  forall k fuel', (n <= i + k)%nat -> (length (firstn k ws) < fuel')%nat ->
  argc_frame_loop fuel' (firstn k ws) i f = Ret (Some (n, f')).
Proof.
  induction fuel as [|fuel IH]; intros ws i f n f' H k fuel' Hk Hf; [discriminate|].
  destruct fuel' as [|fuel']; [lia|]. cbn [argc_frame_loop] in *.
  destruct ws as [|w r]; [rewrite firstn_nil; auto|].
  destruct k as [|k]; cbn [firstn length] in *.
  - destruct (String.eqb w "help"); [discriminate|]. destruct (find_tmpl w); [|auto].
    destruct (FRAME_STACK_MAX <=? _); [discriminate|]. binv H. destruct a; [discriminate|]. apply argc_mono in H. lia.
  - destruct (String.eqb w "help"); [discriminate|]. destruct (find_tmpl w) as [t|]; [|auto].
    destruct (FRAME_STACK_MAX <=? _); [discriminate|].
    destruct (parse_hdr r t (fr_padding f) (fr_has_mask f)) as [[|m h p mk]|c] eqn:E; try discriminate. cbn [bind] in H.
    pose proof (argc_mono _ _ _ _ _ _ H) as Hm.
    rewrite (parse_hdr_prefix _ _ _ _ _ _ _ _ k E) by lia. cbn [bind].
    rewrite skipn_firstn_cut by lia. eapply IH; [exact H|lia|].
    rewrite firstn_length, skipn_length. rewrite firstn_length in Hf. lia.
Qed.

Lemma argc_prefix : forall ws n f k, argc_frame ws = Ret (Some (n, f)) -> (n <= k)%nat ->
  argc_frame (firstn k ws) = Ret (Some (n, f)).
Proof.
  intros ws n f k H Hk. unfold argc_frame in *. destruct (FRAME_STACK_MAX <? zlen ws) eqn:E; [discriminate|].
  rewrite zlen_firstn. replace (FRAME_STACK_MAX <? Z.min (Z.of_nat k) (zlen ws)) with false by lia.
  eapply argc_prefix_loop; [exact H|lia|lia].
Qed.

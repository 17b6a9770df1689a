(** Whole headers and frames. *)

From Verif Require Import PTextIp Frame PSer SpecParse PParse PMatch SpecFrame PInv PStep.

Definition parsed (h : hdr) : Prop := exists t, In t hdr_tmpls /\ inv t h.

(** A crash while reading the words [ws] of a header made from [t]. *)
Definition word_crash (t : hdr) (ws : list string) (c : crash) : Prop :=
  c = Out_of_model \/
  exists A w B, ws = A ++ w :: B /\
    ((exists v B', B = v :: B' /\ narrow_crash t w v c) \/ multi_crash t w B c).

Lemma word_crash_app : forall t A ws c, word_crash t ws c -> word_crash t (A ++ ws) c.
Proof.
  intros t A ws c [H|[A' [w [B [-> H]]]]]; [left; auto|]. right. exists (A ++ A'), w, B. rewrite app_assoc. auto.
Qed.

Ltac tri := split; [auto|split; [auto|cbn [length] in *; lia]].

Lemma hpf_ok : forall fuel t ws i h pad mask, In t hdr_tmpls -> inv t h -> is_pl t = false -> (length ws < fuel)%nat ->
  match hpf_loop fuel ws i h pad mask with
  | Crash c => word_crash t ws c
  | Ret PErr => True
  | Ret (POk n h' pad' mask') => inv t h' /\ pad' = pad /\ (i <= n <= i + length ws)%nat
  end.
Proof.
  induction fuel as [|fuel IH]; intros t ws i h pad mask Ht I Hpl Hf; [lia|]. cbn [hpf_loop].
  destruct ws as [|w r]; [tri|]. cbn [length] in Hf.
  destruct (String.eqb w "help"); [exact Logic.I|].
  destruct (is_ign w && (i =? 0)%nat) eqn:Ei.
  - assert (I' : inv t (set_fields (map (set_skip true) (h_fields h)) h)).
    { apply inv_change; auto.
      - rewrite map_map. apply map_ext. intros f. apply keeps_fsig. apply keeps_set_skip.
      - rewrite map_map. apply map_ext. intros f. apply keeps_lay. apply keeps_set_skip.
      - apply Forall_map. eapply Forall_impl; [|apply (i_val _ _ I)]. intros f. apply fok_set_skip. }
    specialize (IH t r (i + 1)%nat _ pad true Ht I' Hpl ltac:(lia)).
    destruct (hpf_loop fuel r (i + 1) _ pad true) as [[|n h' p' m']|c]; auto.
    + destruct IH as [H1 [H2 H3]]. tri.
    + apply (word_crash_app t [w] r c). auto.
  - destruct (find_field h w) as [f|] eqn:Ef; [|tri].
    destruct r as [|v r2]; [exact Logic.I|]. cbn [length] in *.
    assert (I0 : inv t (fmod w (set_val None) h)).
    { apply (inv_set_val t h w f); auto; [discriminate|]. intros _. eapply inv_clear; eauto. }
    assert (Ef0 : find_field (fmod w (set_val None) h) w = Some (set_val None f)).
    { apply find_field_fmod; auto. }
    assert (Hskip : forall b h1, inv t h1 -> inv t (fmod w (set_skip b) h1)).
    { intros b h1 I1. apply inv_fmod; [auto|apply keeps_set_skip|intros g; apply fok_set_skip]. }
    destruct (is_ign v).
    { specialize (IH t r2 (i + 2)%nat _ pad true Ht (Hskip true _ I0) Hpl ltac:(lia)).
      destruct (hpf_loop fuel r2 (i + 2) _ pad true) as [[|n h' p' m']|c]; auto.
      - destruct IH as [H1 [H2 H3]]. tri.
      - apply (word_crash_app t [w; v] r2 c). auto. }
    destruct (String.eqb v "help"); [exact Logic.I|].
    destruct (is_multi (f_parser f)) eqn:Em.
    + destruct (run_multi_ok t _ w (set_val None f) (v :: r2) Ht I0 Hpl Ef0 Em) as [[c [E Hc]]|[h1 [n [E [I1 Hn]]]]];
        cbn [set_val f_parser] in E; rewrite E; cbn [bind].
      * right. exists [], w, (v :: r2). auto.
      * destruct ((0 <? n) && (n <=? zlen (v :: r2))) eqn:En; [|exact Logic.I].
        assert (Hlen : (length (skipn (Z.to_nat n) (v :: r2)) + Z.to_nat n = length (v :: r2))%nat).
        { rewrite skipn_length. unfold zlen in *. lia. }
        cbn [length] in Hlen.
        specialize (IH t (skipn (Z.to_nat n) (v :: r2)) (i + 1 + Z.to_nat n)%nat _ pad mask Ht (Hskip false _ I1) Hpl ltac:(lia)).
        destruct (hpf_loop fuel _ _ _ pad mask) as [[|n' h' p' m']|c]; auto.
        -- destruct IH as [H1 [H2 H3]]. tri.
        -- rewrite <- (firstn_skipn (Z.to_nat n) (v :: r2)). change (w :: ?x) with ([w] ++ x). rewrite app_assoc. apply word_crash_app. auto.
    + destruct (run_parser_ok t _ w (set_val None f) v Ht I0 Hpl Ef0 eq_refl Em) as [[c [E Hc]]|[h1 [o [E I1]]]];
        cbn [set_val f_parser f_width] in E; rewrite E; cbn [bind].
      * right. exists [], w, (v :: r2). split; auto. left. exists v, r2. auto.
      * specialize (IH t r2 (i + 2)%nat _ pad mask Ht (Hskip false _ I1) Hpl ltac:(lia)).
        destruct (hpf_loop fuel r2 (i + 2) _ pad mask) as [[|n h' p' m']|c]; auto.
        -- destruct IH as [H1 [H2 H3]]. tri.
        -- apply (word_crash_app t [w; v] r2 c). auto.
Qed.

Lemma payload_no_token : forallb (fun t => if is_pl t then forallb (fun f => negb (fp_eqb (f_parser f) FP_coap_token)) (h_fields t) else true) hdr_tmpls = true.
Proof. vm_compute. reflexivity. Qed.

Lemma parse_hdr_ok : forall t ws pad mask, In t hdr_tmpls ->
  match parse_hdr ws t pad mask with
  | Crash c => word_crash t ws c
  | Ret PErr => True
  | Ret (POk n h' pad' mask') => inv t h' /\ (n <= length ws)%nat
  end.
Proof.
  intros t ws pad mask Ht. unfold parse_hdr.
  pose proof (inv_init t Ht) as I. pose proof (tmpl_checked t Ht) as Hc.
  assert (Hpl : is_pl t = match h_parser t with HP_payload => true | _ => false end) by reflexivity.
  unfold tmpl_chk in Hc. rewrite !andb_true_iff in Hc. destruct Hc as [[_ Hplc] Hpar].
  destruct (h_parser t) eqn:Ep.
  - unfold hdr_parse_fields.
    pose proof (hpf_ok (S (length ws)) t ws 0 t pad mask Ht I Hpl ltac:(lia)) as H.
    destruct (hpf_loop (S (length ws)) ws 0 t pad mask) as [[|n h' p' m']|c]; auto. destruct H as [H1 [H2 H3]]. split; auto. lia.
  - unfold payload_parser. rewrite Hpl in Hplc. apply Nat.eqb_eq in Hplc.
    destruct (pvb_safe ws) as [E|[n [ob [E Hor]]]]; rewrite E; cbn [bind]; [left; auto|].
    destruct Hor as [[Hn0 ->]|[Hn2 [b [-> Hb]]]].
    + destruct (n <? 0) eqn:En; [exact Logic.I|]. replace (n =? 0) with true by lia. split; auto. lia.
    + replace (n <? 0) with false by lia. replace (n =? 0) with false by lia.
      destruct (size_limit <? zlen b) eqn:El; [left; auto|].
      split; [|unfold zlen in *; lia].
      destruct (h_fields t) as [|f [|y r]] eqn:EF; cbn [length] in Hplc; try lia.
      unfold mod_nth. cbn [nth_error upd].
      change [set_val (Some b) (set_width (zlen b * 8) f)] with ([] ++ [set_val (Some b) (set_width (zlen b * 8) f)]).
      pose proof (zlen_nonneg _ b) as Hb0. pose proof size_limit_val as Hsl.
      apply (inv_last t t [] f _ b); auto; cbn [set_width set_val f_width]; try lia; try reflexivity.
      * unfold isv. rewrite Hpl. auto.
      * intros E2. pose proof payload_no_token as HC. rewrite forallb_forall in HC. specialize (HC t Ht). rewrite Hpl, EF in HC. cbn [forallb] in HC. rewrite E2 in HC. discriminate.
  - unfold padding_parser. destruct ws as [|w r]; [exact Logic.I|].
    destruct (parse_uint32_safe w) as [o [Ho _]]. rewrite Ho. cbn [bind]. destruct o; [|exact Logic.I].
    split; auto. cbn [length]. lia.
  - discriminate.
Qed.

Lemma find_tmpl_in : forall w t, find_tmpl w = Some t -> In t hdr_tmpls /\ h_name t = w.
Proof.
  intros w t H. unfold find_tmpl in H. apply find_some in H. destruct H as [H1 H2]. apply String.eqb_eq in H2. auto.
Qed.

(** A crash while reading the words [ws] of a frame. *)
Definition frame_crash (ws : list string) (c : crash) : Prop :=
  c = Out_of_model \/ exists t A B, In t hdr_tmpls /\ ws = A ++ h_name t :: B /\ word_crash t B c.

Lemma frame_crash_app : forall A ws c, frame_crash ws c -> frame_crash (A ++ ws) c.
Proof.
  intros A ws c [H|[t [A' [B [Ht [-> H]]]]]]; [left; auto|]. right. exists t, (A ++ A'), B. rewrite app_assoc. auto.
Qed.

Lemma argc_frame_loop_ok : forall fuel ws i f, (length ws < fuel)%nat ->
  (length (fr_stack f) <= i)%nat -> (i + length ws <= 100)%nat -> Forall parsed (fr_stack f) ->
  match argc_frame_loop fuel ws i f with
  | Crash c => frame_crash ws c
  | Ret None => True
  | Ret (Some (n, f')) => (i <= n <= i + length ws)%nat /\ (length (fr_stack f') <= n)%nat /\ Forall parsed (fr_stack f')
  end.
Proof.
  induction fuel as [|fuel IH]; intros ws i f Hf Hs Hl HP; [lia|]. cbn [argc_frame_loop].
  destruct ws as [|w r]; [cbn [length]; repeat split; auto; lia|]. cbn [length] in *.
  destruct (String.eqb w "help"); [exact Logic.I|].
  destruct (find_tmpl w) as [t|] eqn:Et; [|repeat split; auto; lia].
  destruct (find_tmpl_in _ _ Et) as [Ht Hn].
  replace (FRAME_STACK_MAX <=? zlen (fr_stack f)) with false by (unfold FRAME_STACK_MAX, zlen; lia).
  pose proof (parse_hdr_ok t r (fr_padding f) (fr_has_mask f) Ht) as H.
  destruct (parse_hdr r t (fr_padding f) (fr_has_mask f)) as [[|n h p m]|c]; cbn [bind]; auto.
  - destruct H as [I Hlen].
    assert (HL : (length (skipn n r) + n = length r)%nat) by (rewrite skipn_length; lia).
    assert (HP' : Forall parsed (fr_stack f ++ [h])).
    { apply Forall_app. split; auto. constructor; [exists t; auto|constructor]. }
    specialize (IH (skipn n r) (i + 1 + n)%nat (MkFrame (fr_stack f ++ [h]) p m)).
    cbn [fr_stack] in IH. rewrite app_length in IH. cbn [length] in IH. specialize (IH ltac:(lia) ltac:(lia) ltac:(lia) HP').
    destruct (argc_frame_loop fuel _ _ _) as [[[n' f']|]|c]; auto.
    + destruct IH as [H1 [H2 H3]]. repeat split; auto; lia.
    + rewrite <- (firstn_skipn n r). change (w :: ?x) with ([w] ++ x). rewrite app_assoc. apply frame_crash_app. auto.
  - right. exists t, [], r. cbn [app]. rewrite Hn. auto.
Qed.

Lemma argc_frame_ok : forall ws,
  match argc_frame ws with
  | Crash c => frame_crash ws c
  | Ret None => True
  | Ret (Some (n, f)) => (n <= length ws)%nat /\ (length (fr_stack f) <= n)%nat /\ (length (fr_stack f) <= 100)%nat /\ Forall parsed (fr_stack f)
  end.
Proof.
  intros ws. unfold argc_frame. destruct (FRAME_STACK_MAX <? zlen ws) eqn:E; [exact Logic.I|].
  assert (H100 : (length ws <= 100)%nat) by (unfold FRAME_STACK_MAX, zlen in E; lia).
  pose proof (argc_frame_loop_ok (S (length ws)) ws 0 empty_frame ltac:(lia) ltac:(cbn; lia) ltac:(lia) (Forall_nil _)) as H.
  destruct (argc_frame_loop (S (length ws)) ws 0 empty_frame) as [[[n f]|]|c]; auto.
  destruct H as [H1 [H2 H3]]. repeat split; auto; lia.
Qed.

(** The words of a frame are the words of its headers, one after the other (C56). *)

From Verif Require Import PTextIp Frame PSer SpecParse PParse PMatch SpecFrame PInv PStep PArgs PPrefix PAssign.

Lemma hpf_flags : forall fuel ws i h pad mask n h' pad' mask', hpf_loop fuel ws i h pad mask = Ret (POk n h' pad' mask') ->
  pad' = pad /\ exists m, mask' = mask || m /\ forall p0 m0, hpf_loop fuel ws i h p0 m0 = Ret (POk n h' p0 (m0 || m)).
Proof.
  induction fuel as [|fuel IH]; intros ws i h pad mask n h' pad' mask' H; [discriminate|]. cbn [hpf_loop] in H |- *.
  assert (HE : forall i0 h0, Ret (POk i0 h0 pad mask) = Ret (POk n h' pad' mask') -> pad' = pad /\ exists m, mask' = mask || m /\
     forall p0 m0, Ret (POk i0 h0 p0 m0) = Ret (POk n h' p0 (m0 || m))).
  { intros i0 h0 E. assert (n = i0) by congruence. assert (h' = h0) by congruence. assert (pad' = pad) by congruence. assert (mask' = mask) by congruence. subst.
    split; [auto|]. exists false. split; [rewrite orb_false_r; auto|]. intros. rewrite orb_false_r. auto. }
  assert (HT : forall ws i h, hpf_loop fuel ws i h pad true = Ret (POk n h' pad' mask') -> pad' = pad /\ exists m, mask' = mask || m /\
     forall p0 (m0 : bool), hpf_loop fuel ws i h p0 true = Ret (POk n h' p0 (m0 || m))).
  { intros ws0 i0 h0 E. destruct (IH _ _ _ _ _ _ _ _ _ E) as [H1 [m [H2 H3]]]. split; [auto|]. exists true. split; [rewrite orb_true_r, H2; auto|].
    intros p0 m0. rewrite orb_true_r. rewrite H3. auto. }
  destruct ws as [|w r]; [apply HE in H; exact H|]. destruct (String.eqb w "help"); [discriminate|].
  destruct (is_ign w && (i =? 0)%nat); [apply HT in H; exact H|].
  destruct (find_field h w) as [f|]; [|apply HE in H; exact H].
  destruct r as [|v r2]; [discriminate|]. destruct (is_ign v); [apply HT in H; exact H|]. destruct (String.eqb v "help"); [discriminate|].
  destruct (is_multi (f_parser f)).
  - destruct (run_multi _ _ _ _) as [[h1 cnt]|c]; [|discriminate]. cbn [bind] in *. destruct ((0 <? cnt) && _); [|discriminate]. apply IH in H. exact H.
  - destruct (run_parser _ _ _ _) as [[h1 o]|c]; [|discriminate]. cbn [bind] in *. apply IH in H. exact H.
Qed.

Lemma parse_hdr_flags : forall t ws pad mask n h pad' mask', parse_hdr ws t pad mask = Ret (POk n h pad' mask') ->
  exists (P : Z -> Z) m, forall p0 m0, parse_hdr ws t p0 m0 = Ret (POk n h (P p0) (m0 || m)).
Proof.
  intros t ws pad mask n h pad' mask' H. unfold parse_hdr in *. destruct (h_parser t); [..|discriminate].
  - unfold hdr_parse_fields in *. destruct (hpf_flags _ _ _ _ _ _ _ _ _ _ H) as [_ [m [_ H3]]]. exists (fun p => p), m. exact H3.
  - unfold payload_parser in *. destruct (parse_var_bytes ws) as [[res ob]|c]; cbn [bind] in *; [|discriminate].
    exists (fun p => p), false. destruct (res <? 0); [discriminate|]. destruct (res =? 0).
    + intros. rewrite orb_false_r. congruence.
    + destruct ob as [b|]; [|discriminate]. destruct (size_limit <? zlen b); [discriminate|]. intros. rewrite orb_false_r. congruence.
  - unfold padding_parser in *. destruct ws as [|w r]; [discriminate|]. destruct (parse_uint32 w) as [o|]; cbn [bind] in *; [|discriminate].
    destruct o as [x|]; [|discriminate]. exists (fun _ => to_int x), false. intros. rewrite orb_false_r. congruence.
Qed.

Lemma segs_loop : forall fuel ws i f n f', argc_frame_loop fuel ws i f = Ret (Some (n, f')) -> zlen ws <= FRAME_STACK_MAX ->
  exists segs hs, (n = i + length (concat segs))%nat /\ concat segs = firstn (n - i) ws /\ fr_stack f' = fr_stack f ++ hs /\ Forall2 header_words segs hs.
Proof.
  induction fuel as [|fuel IH]; intros ws i f n f' H Hl; [discriminate|]. cbn [argc_frame_loop] in H.
  assert (HE : Ret (Some (i, f)) = Ret (Some (n, f')) ->
     exists segs hs, (n = i + length (concat segs))%nat /\ concat segs = firstn (n - i) ws /\ fr_stack f' = fr_stack f ++ hs /\ Forall2 header_words segs hs).
  { intros E. assert (n = i) by congruence. assert (f' = f) by congruence. subst. exists [], []. cbn [concat length]. rewrite Nat.sub_diag. split; [lia|]. split; [auto|]. split; [rewrite app_nil_r; auto|constructor]. }
  destruct ws as [|w r]; [auto|]. destruct (String.eqb w "help") eqn:Eh; [discriminate|].
  destruct (find_tmpl w) as [t|] eqn:Et; [|auto]. clear HE. destruct (FRAME_STACK_MAX <=? zlen (fr_stack f)); [discriminate|].
  destruct (parse_hdr r t (fr_padding f) (fr_has_mask f)) as [[|m h pd mk]|c] eqn:E; try discriminate. cbn [bind] in H.
  rewrite zlen_cons in Hl. pose proof (find_tmpl_in _ _ Et) as [Ht _].
  pose proof (parse_hdr_ok t r (fr_padding f) (fr_has_mask f) Ht) as HO. rewrite E in HO. destruct HO as [_ HO].
  destruct (IH _ _ _ _ _ H) as [segs [hs [H1 [H2 [H3 H4]]]]]; [unfold zlen in *; rewrite skipn_length; lia|].
  exists ((w :: firstn m r) :: segs), (h :: hs). cbn [concat fr_stack] in *. rewrite app_length. cbn [length]. rewrite firstn_length, Nat.min_l by lia.
  split; [lia|]. split; [|split; [rewrite H3, <- app_assoc; reflexivity|]].
  - rewrite H2. replace (n - i)%nat with (S (m + (n - (i + 1 + m))))%nat by lia. cbn [firstn app]. f_equal.
    rewrite <- (firstn_skipn m r) at 3. rewrite firstn_app. rewrite firstn_length, Nat.min_l by lia.
    rewrite (firstn_all2 (n := (m + (n - (i + 1 + m)))%nat) (firstn m r)) by (rewrite firstn_length; lia). f_equal. f_equal. lia.
  - constructor; [|auto].
    destruct (parse_hdr_flags _ _ _ _ _ _ _ _ (parse_hdr_prefix _ _ _ _ _ _ _ _ m E ltac:(lia))) as [P [mm HP]].
    exists (P 0), (false || mm). unfold argc_frame. rewrite zlen_cons, zlen_firstn.
    destruct (Z.ltb_spec FRAME_STACK_MAX (1 + Z.min (Z.of_nat m) (zlen r))); [unfold zlen in *; lia|].
    cbn [length argc_frame_loop]. rewrite Eh, Et. change (FRAME_STACK_MAX <=? zlen (fr_stack empty_frame)) with false. cbv iota.
    cbn [empty_frame fr_padding fr_has_mask fr_stack]. rewrite HP. cbn [bind]. rewrite skipn_all2 by (rewrite firstn_length; lia).
    rewrite firstn_length, Nat.min_l by lia. cbn [argc_frame_loop app]. reflexivity.
Qed.

Lemma frame_segments : forall ws n f, argc_frame ws = Ret (Some (n, f)) ->
  exists segs, concat segs = firstn n ws /\ length (concat segs) = n /\ Forall2 header_words segs (fr_stack f).
Proof.
  intros ws n f H. unfold argc_frame in H. destruct (Z.ltb_spec FRAME_STACK_MAX (zlen ws)); [discriminate|].
  destruct (segs_loop _ _ _ _ _ _ H ltac:(lia)) as [segs [hs [H1 [H2 [H3 H4]]]]]. cbn [empty_frame fr_stack app] in H3. rewrite H3.
  exists segs. split; [rewrite H2; f_equal; lia|]. split; [lia|auto].
Qed.

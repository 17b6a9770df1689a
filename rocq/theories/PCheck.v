(** The checksums of emitted frames. *)

From Verif Require Import PTextIp PTextNum Frame PSer PParse PMatch PFrame PInv PStep PArgs PSoft PFill PGroup PAll PSafe PAssign PImage PSum PEmit SpecFill.

Lemma be2_two : forall c, 0 <= c <= 65535 -> be_bytes 2 c = two_bytes c.
Proof.
  intros c Hc. unfold two_bytes. change (be_bytes 2 c) with [c / 256 mod 256; c mod 256]. f_equal. lia.
Qed.

Lemma render_cons : forall h B, Forall (wf_hdr false) (h :: B) -> render (h :: B) = render [h] ++ render B.
Proof.
  intros h B H. pose proof (Forall_inv H). apply Forall_inv_tail in H. rewrite <- (render_app [h] B); auto.
Qed.

Lemma blank_at : forall pre x post, length x = 2%nat -> blank (length pre) (pre ++ x ++ post) = pre ++ [0; 0] ++ post.
Proof.
  intros pre x post H. unfold blank. rewrite firstn_app, firstn_all, Nat.sub_diag. cbn [firstn]. rewrite app_nil_r.
  rewrite !skipn_app, (skipn_all2 pre) by lia. replace (length pre + 2 - length pre)%nat with 2%nat by lia. rewrite (skipn_all2 x) by lia.
  replace (2 - length x)%nat with 0%nat by lia. reflexivity.
Qed.

Lemma even_add : forall a b, Nat.Even a -> Nat.Even b -> Nat.Even (a + b).
Proof. intros a b [x ->] [y ->]. exists (x + y)%nat. lia. Qed.

(** The two bytes at [off] of [m] are the checksum over [P] and [m]. *)
Definition summed (P : list Z) (off : nat) (m : list Z) : Prop :=
  slice m off 2 = once (P ++ blank off m) /\ (verifies (P ++ m) <-> no_second_carry (P ++ blank off m)).

Lemma checksum_stack : forall P h j f B c off, bytes_ok P -> Nat.Even (length P) ->
  Forall (wf_hdr false) (h :: B) -> wf_hdr false (put "chksum" (be_bytes 2 c) h) ->
  index_of "chksum" (h_fields h) = Some j -> lone h j f -> field_data f = None ->
  f_off f = 8 * Z.of_nat off -> f_width f = 16 -> Nat.Even off -> 8 * Z.of_nat off + 16 <= 8 * h_size h ->
  zlen (P ++ render (h :: B)) < 131072 -> c = inet_chksum 0 (P ++ render (h :: B)) ->
  let m := render (put "chksum" (be_bytes 2 c) h :: B) in
  summed P off m.
Proof.
  intros P h j f B c off HP HPe HW HW' Hj Hl Hd Ho Hw He Hin Hlen Hc m.
  assert (Hcr : 0 <= c <= 65535) by (rewrite Hc; apply inet_range).
  pose proof (Forall_inv HW) as Hh. pose proof (Forall_inv_tail HW) as HB.
  destruct (set_lone h j f (put "chksum" (be_bytes 2 c) h) (be_bytes 2 c)) as [pre [post [E1 [E2 E3]]]]; auto.
  - lia.
  - lia.
  - lia.
  - apply be_bytes_ok.
  - unfold put, fmod. cbn [h_fields set_fields]. apply mod_first_upd; auto. destruct Hl; auto.
  - rewrite be_bytes_length in E1. change (repeat 0 2) with [0; 0] in E1.
    assert (Lp : length pre = off) by lia.
    assert (HWp : Forall (wf_hdr false) (put "chksum" (be_bytes 2 c) h :: B)) by (constructor; auto).
    assert (M1 : m = pre ++ two_bytes c ++ (post ++ render B)).
    { unfold m. rewrite render_cons by auto. rewrite E2, be2_two by auto. rewrite <- !app_assoc. reflexivity. }
    assert (D1 : render (h :: B) = pre ++ [0; 0] ++ (post ++ render B)).
    { rewrite render_cons by auto. rewrite E1. rewrite <- !app_assoc. reflexivity. }
    assert (Hb1 : bytes_ok (render (h :: B))) by (apply render_spec; auto).
    rewrite D1 in Hb1. rewrite !bytes_ok_app in Hb1. destruct Hb1 as [B1 [_ [B2 B3]]].
    unfold summed. rewrite M1. rewrite <- Lp. rewrite blank_at by reflexivity. rewrite D1 in Hc, Hlen. clear M1 D1 m.
    split.
    { assert (D : bytes_ok (P ++ pre ++ [0; 0] ++ (post ++ render B))).
      { apply bytes_ok_app. split; [exact HP|]. apply bytes_ok_app. split; [exact B1|]. apply bytes_ok_app. split; [|apply bytes_ok_app; auto].
        constructor; [unfold byte_ok; lia|constructor; [unfold byte_ok; lia|constructor]]. }
      unfold slice. rewrite skipn_app, skipn_all, Nat.sub_diag. cbn [skipn app]. change (firstn 2 (two_bytes c ++ post ++ render B)) with (two_bytes c). rewrite Hc. apply checksum_once; auto. }
    pose proof (checksum_verifies (P ++ pre) (post ++ render B)) as HC. cbv zeta in HC. rewrite <- !app_assoc in HC.
    destruct HC as [_ HC]; auto.
    + rewrite app_length. apply even_add; auto. rewrite Lp. auto.
    + apply bytes_ok_app; auto.
    + apply bytes_ok_app; auto.
    + rewrite <- Hc in HC. exact HC.
Qed.

(** *** Slices *)
Lemma skip_skip : forall (b : buf) o n, skipn n (skipn o b) = skipn (o + n) b.
Proof. induction b as [|x b IH]; intros [|o] n; cbn [skipn Nat.add]; auto. destruct n; reflexivity. Qed.

Lemma slice_add : forall (b : buf) o n m, slice b o (n + m) = slice b o n ++ slice b (o + n) m.
Proof.
  intros b o n m. unfold slice. assert (K : forall (l : buf), firstn (n + m) l = firstn n l ++ firstn m (skipn n l)).
  { clear. induction n as [|n IH]; intros l; [reflexivity|]. destruct l; cbn [firstn skipn app Nat.add]; [destruct m; reflexivity|]. f_equal. apply IH. }
  rewrite K. f_equal. f_equal. apply skip_skip.
Qed.

Lemma slice_slice : forall (b : buf) s size o n, (o + n <= size)%nat -> slice (slice b s size) o n = slice b (s + o) n.
Proof.
  intros b s size o n H. unfold slice. assert (K : forall (l : buf), firstn n (skipn o (firstn size l)) = firstn n (skipn o l)).
  { intros l. rewrite skipn_firstn_comm, firstn_firstn. f_equal. lia. }
  rewrite K. f_equal. apply skip_skip.
Qed.

(** *** The emitted pieces *)
Lemma em_tail : forall f f' b k t h h', emitting f f' b k t h h' -> skipn k (fr_stack f') = h' :: skipn (S k) (fr_stack f').
Proof. intros f f' b k t h h' E. apply skipn_cons_nth. apply E. Qed.

Lemma em_message : forall f f' b k t h h', emitting f f' b k t h h' -> message f' b k = render (h' :: skipn (S k) (fr_stack f')).
Proof.
  intros f f' b k t h h' E. unfold message, at_byte, bytes_from. rewrite (emitted_from f f' b k); [|apply E|apply E]. rewrite (em_tail _ _ _ _ _ _ _ E). auto.
Qed.

Lemma em_size : forall f f' b k t h h', emitting f f' b k t h h' -> bytes_from f' k = stack_size (h' :: skipn (S k) (fr_stack f')).
Proof.
  intros f f' b k t h h' E. unfold bytes_from, start_of. rewrite !sum_sizes_stack. rewrite <- (em_tail _ _ _ _ _ _ _ E).
  pose proof (stack_size_firstn_skipn (fr_stack f') k). lia.
Qed.

Lemma em_layout : forall f f' b k t h h', emitting f f' b k t h h' -> value_fill (h_fill t) = true -> varhdr t = false ->
  names (h_fields h') = names (h_fields t) /\ map lay (h_fields h') = map lay (h_fields t) /\ h_size h' = h_size t.
Proof.
  intros f f' b k t h h' E Hv Hx. destruct (e_filled _ _ _ _ _ _ _ E) as [_ [_ [_ [H _]]]]. destruct (H Hv) as [I _].
  pose proof (i_sig _ _ I) as I1. pose proof (i_fix _ _ I Hx) as I2. cbn [set_type h_fields h_size] in *. apply names_sig in I1. destruct I2. auto.
Qed.

Lemma inv_layout : forall t h, inv t h -> varhdr t = false ->
  names (h_fields h) = names (h_fields t) /\ map lay (h_fields h) = map lay (h_fields t) /\ h_size h = h_size t.
Proof. intros t h I Hv. destruct (i_fix _ _ I Hv). pose proof (names_sig _ _ _ (i_sig _ _ I)). auto. Qed.

Lemma inv_def : forall t h n f, inv t h -> find_field h n = Some f -> f_def f = match find_field t n with Some ft => f_def ft | None => None end.
Proof.
  intros t h n f I H. destruct (find_field t n) as [ft|] eqn:E.
  - destruct (inv_find _ _ _ _ I E) as [f2 [H1 H2]]. assert (f2 = f) by congruence. subst. unfold fsig in H2. congruence.
  - rewrite (inv_find_none _ _ _ I E) in H. discriminate.
Qed.

(** A field of a header with unchanged layout *)
Lemma em_field : forall f f' b k t h h' n off w fl, emitting f f' b k t h h' -> value_fill (h_fill t) = true -> varhdr t = false ->
  at_place t n off w = true -> 0 <= off -> 0 <= w -> off + w <= 8 * h_size t -> find_field h' n = Some fl ->
  field_at f' b k off (Z.to_nat w) = match field_data fl with Some v => positional 256 v mod 2 ^ w | None => 0 end.
Proof.
  intros f f' b k t h h' n off w fl E Hv Hx Hp H0 Hw Hin Hf. destruct (em_layout _ _ _ _ _ _ _ E Hv Hx) as [L1 [L2 L3]].
  destruct (at_place_spec t h' n off w L1 L2 Hp) as [j [f2 [_ [F2 [F3 [F4 F5]]]]]]. assert (f2 = fl) by congruence. subst f2.
  unfold field_at. rewrite <- F4, <- F5. eapply emitted_lone; try apply E; eauto. unfold within. rewrite F4, F5, L3. lia.
Qed.

(** Its bytes *)
Lemma em_bytes : forall f f' b k t h h' n off w fl, emitting f f' b k t h h' -> value_fill (h_fill t) = true -> varhdr t = false ->
  at_place t n (8 * Z.of_nat off) (8 * Z.of_nat w) = true -> 8 * Z.of_nat off + 8 * Z.of_nat w <= 8 * h_size t -> find_field h' n = Some fl ->
  slice b (at_byte f' k + off) w = fbytes fl /\ f_width fl = 8 * Z.of_nat w.
Proof.
  intros f f' b k t h h' n off w fl E Hv Hx Hp Hin Hf. destruct (em_layout _ _ _ _ _ _ _ E Hv Hx) as [L1 [L2 L3]].
  destruct (at_place_spec t h' n _ _ L1 L2 Hp) as [j [f2 [_ [F2 [F3 [F4 F5]]]]]]. assert (f2 = fl) by congruence. subst f2.
  destruct (emitting_tail _ _ _ _ _ _ _ E) as [_ [_ [_ W']]].
  pose proof (lone_bytes h' j fl W' F3) as HL. rewrite F4, F5 in HL. specialize (HL ltac:(lia) ltac:(lia) ltac:(lia) ltac:(lia)).
  replace (Z.to_nat (8 * Z.of_nat off / 8)) with off in HL by lia. replace (Z.to_nat (8 * Z.of_nat w / 8)) with w in HL by lia.
  split; [|auto]. rewrite <- HL. rewrite <- (emitted_header f f' b k h'); [|apply E|apply E|apply E].
  rewrite slice_slice by lia. reflexivity.
Qed.

(** *** Pseudo headers *)
Lemma fbytes_val : forall w o1 o2 d v p1 p2 n1 n2 s1 s2, fbytes (MkField n1 s1 w o1 d v p1) = fbytes (MkField n2 s2 w o2 d v p2).
Proof. reflexivity. Qed.

Lemma field_eta : forall f, f = MkField (f_name f) (f_skip f) (f_width f) (f_off f) (f_def f) (f_val f) (f_parser f).
Proof. intros []. reflexivity. Qed.

Lemma fbytes_be : forall n s k o x p, fbytes (MkField n s (8 * Z.of_nat k) o None (Some (be_bytes k x)) p) = be_bytes k x.
Proof.
  intros. unfold fbytes. cbn [f_width field_data f_val]. replace (Z.to_nat (8 * Z.of_nat k / 8)) with k by lia. rewrite be_bytes_length, Nat.sub_diag. reflexivity.
Qed.

Lemma pseudo4_render : forall s d x n, opt_ok 32 s -> opt_ok 32 d ->
  render [pseudo4 s d (Some (be_bytes 1 x)) (Some (be_bytes 2 n))] =
  fbytes (MkField "" false 32 0 None s FP_default) ++ fbytes (MkField "" false 32 0 None d FP_default) ++ [0; x mod 256] ++ be_bytes 2 n.
Proof.
  intros s d x n Hs Hd. rewrite render_bytes.
  - unfold pseudo4. cbn [h_fields flat_map]. rewrite app_nil_r. rewrite (fbytes_be "proto" false 1 72 x), (fbytes_be "len" false 2 80 n). reflexivity.
  - apply pseudo4_wf; auto; [apply (parse_opt (fmt_d (x mod 256)) 1); [lia|]|apply (parse_opt (fmt_d (n mod 65536)) 2); [lia|]].
    + unfold fmt_d. rewrite parse_print_d by lia. do 2 f_equal. change (be_bytes (Z.to_nat 1) (x mod 256)) with [x mod 256 mod 256]. change (be_bytes 1 x) with [x mod 256]. f_equal. lia.
    + unfold fmt_d. rewrite parse_print_d by lia. do 2 f_equal. change (be_bytes (Z.to_nat 2) (n mod 65536)) with [n mod 65536 / 256 mod 256; n mod 65536 mod 256].
      change (be_bytes 2 n) with [n / 256 mod 256; n mod 256]. f_equal; [|f_equal]; lia.
  - unfold pseudo4. cbn [h_fields]. repeat constructor.
  - cbn. repeat split; lia.
  - reflexivity.
Qed.

Lemma pseudo6_render : forall s d x n, opt_ok 128 s -> opt_ok 128 d ->
  render [pseudo6 s d (Some (be_bytes 1 x)) (Some (be_bytes 4 n))] =
  fbytes (MkField "" false 128 0 None s FP_default) ++ fbytes (MkField "" false 128 0 None d FP_default) ++ be_bytes 4 n ++ [0; 0; 0; x mod 256].
Proof.
  intros s d x n Hs Hd.
  assert (O1 : opt_ok 8 (Some (be_bytes 1 x))).
  { apply (parse_opt (fmt_d (x mod 256)) 1); [lia|]. unfold fmt_d. rewrite parse_print_d by lia. do 2 f_equal. change (be_bytes (Z.to_nat 1) (x mod 256)) with [x mod 256 mod 256]. change (be_bytes 1 x) with [x mod 256]. f_equal. lia. }
  assert (O2 : opt_ok 32 (Some (be_bytes 4 n))).
  { intros v Hv. apply some_inj in Hv. subst v. pose proof size_limit_val. split; [unfold zlen; rewrite be_bytes_length; lia|]. split; [apply be_bytes_ok|unfold zlen; rewrite be_bytes_length; lia]. }
  rewrite render_bytes.
  - unfold pseudo6. cbn [h_fields flat_map]. rewrite app_nil_r. rewrite (fbytes_be "proto" false 1 312 x), (fbytes_be "len" false 4 256 n). reflexivity.
  - apply pseudo6_wf; auto.
  - unfold pseudo6. cbn [h_fields]. repeat constructor.
  - cbn. repeat split; lia.
  - reflexivity.
Qed.

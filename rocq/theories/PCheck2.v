(** The checksums of ipv4, udp, tcp, icmp, igmp and mld (C22-C24). *)

From Verif Require Import PTextIp PTextNum Frame PSer PParse PMatch PFrame PInv PStep PArgs PSoft PFill PGroup PAll PSafe PAssign PImage PSum PEmit SpecFill PCheck.

Lemma serialised_emitting : forall ws f f' b k h, serialised ws f f' b -> nth_error (fr_stack f) k = Some h -> exists t h', emitting f f' b k t h h'.
Proof.
  intros ws f f' b k h [[n H1] [H2 H3]] Hk. apply emitting_all; auto. eapply accepted_parsed; eauto.
Qed.

Lemma named_emitting : forall ws f f' b k n t, serialised ws f f' b -> named f k n -> find_tmpl n = Some t ->
  exists h h', emitting f f' b k t h h' /\ h_name h = n /\ nth_error (fr_stack f) k = Some h.
Proof.
  intros ws f f' b k n t HS [h [Hk Hn]] Ht. destruct (serialised_emitting _ _ _ _ _ _ HS Hk) as [t2 [h' E]].
  pose proof (emitting_name _ _ _ _ _ _ _ _ _ E Hn Ht). subst t2. exists h, h'. auto.
Qed.

Lemma gave : forall f k h n, nth_error (fr_stack f) k = Some h -> user_gave f k n = given h n.
Proof. intros f k h n H. unfold user_gave. rewrite H. auto. Qed.

Lemma given_data : forall t h n fl, inv t h -> find_field h n = Some fl -> given h n = false ->
  match find_field t n with Some ft => f_def ft | None => None end = None -> field_data fl = None.
Proof.
  intros t h n fl I Hf Hg Hd. unfold field_data. unfold given in Hg. rewrite Hf in Hg. destruct (f_val fl); [discriminate|]. rewrite (inv_def _ _ _ _ I Hf). auto.
Qed.

(** *** IPv4 *)
Lemma ipv4_checksum : forall ws f f' b k, serialised ws f f' b -> named f k "ipv4" -> user_gave f k "chksum" = false ->
  summed [] 10 (slice b (at_byte f' k) 20).
Proof.
  intros ws f f' b k HS HN HG. set (m := slice b (at_byte f' k) 20). destruct (named_emitting _ _ _ _ _ _ HDR_IPV4 HS HN ltac:(vm_compute; reflexivity)) as [h [h' [E [_ Hk]]]].
  rewrite (gave _ _ _ _ Hk) in HG. destruct (emitting_tail _ _ _ _ _ _ _ E) as [_ [WB [Wh Wh']]].
  destruct (ipv4_eff _ _ _ _ HDR_IPV4 (e_tmpl _ _ _ _ _ _ _ E) eq_refl (e_inv _ _ _ _ _ _ _ E) WB (e_types _ _ _ _ _ _ _ E) (e_run _ _ _ _ _ _ _ E)) as [Eh I2].
  set (h2 := ipv4_len h (skipn (S k) (fr_stack f'))) in *.
  assert (Hg2 : given h2 "chksum" = false). { unfold h2, ipv4_len. rewrite !setd_given by discriminate. auto. }
  unfold setd in Eh. rewrite Hg2 in Eh. destruct (inv_layout _ _ I2 ltac:(vm_compute; reflexivity)) as [L1 [L2 L3]].
  destruct (at_place_spec HDR_IPV4 h2 "chksum" 80 16 L1 L2 ltac:(vm_compute; reflexivity)) as [j [fc [J1 [J2 [J3 [J4 J5]]]]]].
  assert (Sz : h_size h' = 20) by (rewrite Eh; exact L3).
  assert (Em : m = render [h']).
  { unfold m, at_byte. rewrite <- (emitted_header f f' b k h'); [|apply E|apply E|apply E]. rewrite Sz. reflexivity. }
  assert (W2 : wf_hdr false h2) by (eapply inv_wf; [apply (e_tmpl _ _ _ _ _ _ _ E)|exact I2]).
  rewrite Em, Eh. apply (checksum_stack [] h2 j fc [] _ 10); auto.
  - constructor.
  - exists 0%nat. reflexivity.
  - rewrite <- Eh. auto.
  - apply (given_data _ _ _ _ I2 J2 Hg2). vm_compute. reflexivity.
  - exists 5%nat. reflexivity.
  - rewrite L3. vm_compute. discriminate.
  - cbn [app]. destruct (render_spec [h2] ltac:(auto)) as [HL _]. rewrite HL, stack_size_cons, L3. vm_compute. reflexivity.
Qed.

(** *** Addresses of the header below *)
Lemma fkeep_find : forall n a b, Forall2 fkeep a b -> find (fun x => String.eqb n (f_name x)) a = None -> find (fun x => String.eqb n (f_name x)) b = None.
Proof.
  intros n a b H. induction H as [|x y l m Hxy _ IH]; intros Hf; [auto|]. cbn [find] in *. destruct Hxy as [-> _]. cbn [set_val f_name].
  destruct (String.eqb n (f_name x)); [discriminate|auto].
Qed.

Lemma below_fields : forall f f' b k t h h' n, emitting f f' b k t h h' -> (h_fill t = FL_ipv4 \/ h_fill t = FL_ipv6) ->
  In n ["sip"; "dip"]%string -> find_field h' n = find_field h n.
Proof.
  intros f f' b k t h h' n E Hf Hn. destruct (emitting_tail _ _ _ _ _ _ _ E) as [_ [WB [Wh Wh']]].
  assert (Hne : forall m, In m ["proto"; "next"; "len"; "chksum"]%string -> m <> n).
  { intros m Hm. cbn [In] in *. intuition (subst; discriminate). }
  pose proof (e_run _ _ _ _ _ _ _ E) as HR. destruct Hf as [Hf|Hf]; rewrite Hf in HR; cbn [run_fill] in HR.
  - destruct (ipv4_eff _ _ _ _ t (e_tmpl _ _ _ _ _ _ _ E) Hf (e_inv _ _ _ _ _ _ _ E) WB (e_types _ _ _ _ _ _ _ E) HR) as [-> _].
    rewrite setd_other by (apply Hne; cbn; auto). unfold ipv4_len. rewrite !setd_other by (apply Hne; cbn; auto). auto.
  - pose proof (ipv6_eff _ _ _ _ t (e_tmpl _ _ _ _ _ _ _ E) Hf (e_inv _ _ _ _ _ _ _ E) WB (e_types _ _ _ _ _ _ _ E) HR) as ->.
    rewrite !setd_other by (apply Hne; cbn; auto). auto.
Qed.

Lemma opt_val : forall t h n fl, inv t h -> find_field h n = Some fl -> opt_ok (f_width fl) (f_val fl).
Proof.
  intros t h n fl I Hf. apply addr_opt. split; auto. pose proof (i_val _ _ I) as J. rewrite Forall_forall in J. apply J. eapply find_field_in; eauto.
Qed.

(** The addresses in the frame are those of the pseudo header. *)
Lemma address_bytes : forall f f' b k t h h' n off w fl, emitting f f' b k t h h' -> (h_fill t = FL_ipv4 \/ h_fill t = FL_ipv6) -> varhdr t = false ->
  In n ["sip"; "dip"]%string -> at_place t n (8 * Z.of_nat off) (8 * Z.of_nat w) = true -> 8 * Z.of_nat off + 8 * Z.of_nat w <= 8 * h_size t ->
  match find_field t n with Some ft => f_def ft | None => None end = None -> fget h n = Ret fl ->
  slice b (at_byte f' k + off) w = fbytes (MkField "" false (8 * Z.of_nat w) 0 None (f_val fl) FP_default) /\ opt_ok (8 * Z.of_nat w) (f_val fl).
Proof.
  intros f f' b k t h h' n off w fl E Hf Hx Hn Hp Hin Hd Hg. apply fget_inv in Hg.
  pose proof (below_fields _ _ _ _ _ _ _ n E Hf Hn) as Hb. rewrite Hg in Hb.
  assert (Hv : value_fill (h_fill t) = true) by (destruct Hf as [-> | ->]; reflexivity).
  destruct (em_bytes _ _ _ _ _ _ _ n off w fl E Hv Hx Hp Hin Hb) as [H1 H2].
  pose proof (opt_val _ _ _ _ (e_inv _ _ _ _ _ _ _ E) Hg) as H3. rewrite H2 in H3. split; [|auto].
  rewrite H1, (field_eta fl), H2. rewrite (inv_def _ _ _ _ (e_inv _ _ _ _ _ _ _ E) Hg), Hd. apply fbytes_val.
Qed.

Lemma be4_four : forall n, 0 <= n < 4294967296 -> be_bytes 4 n = four_bytes n.
Proof.
  intros n Hn. unfold four_bytes, two_bytes. cbn [app]. change (be_bytes 4 n) with [n / 256 / 256 / 256 mod 256; n / 256 / 256 mod 256; n / 256 mod 256; n mod 256].
  f_equal; [|f_equal; [|f_equal; [|f_equal]]]; lia.
Qed.

Lemma be2_mod : forall n, 0 <= n -> be_bytes 2 n = two_bytes (n mod 65536).
Proof.
  intros n Hn. unfold two_bytes. change (be_bytes 2 n) with [n / 256 mod 256; n mod 256]. f_equal; [|f_equal]; lia.
Qed.

Lemma pseudo_bytes4 : forall f f' b k ll ll' x n ph, emitting f f' b k HDR_IPV4 ll ll' -> 0 <= x < 256 -> 0 <= n < 2 ^ 64 ->
  make_pseudo HDR_IPV4_PSEUDO ll x n = Ret ph -> wf_hdr false ph /\ render [ph] = pseudo_header4 b (at_byte f' k) x (n mod 65536).
Proof.
  intros f f' b k ll ll' x n ph E Hx Hn H.
  destruct (ip_addresses ll 32) as [s [d [Gs [Gd [As Ad]]]]].
  { exists HDR_IPV4. split; apply E. }
  { left. split; [|auto]. apply (i_name _ _ (e_inv _ _ _ _ _ _ _ E)). }
  destruct (address_bytes _ _ _ _ _ _ _ "sip" 12 4 s E (or_introl eq_refl) eq_refl (or_introl eq_refl) ltac:(vm_compute; reflexivity) ltac:(vm_compute; discriminate) ltac:(vm_compute; reflexivity) Gs) as [S1 S2].
  destruct (address_bytes _ _ _ _ _ _ _ "dip" 16 4 d E (or_introl eq_refl) eq_refl (or_intror (or_introl eq_refl)) ltac:(vm_compute; reflexivity) ltac:(vm_compute; discriminate) ltac:(vm_compute; reflexivity) Gd) as [D1 D2].
  pose proof (make_pseudo4 ll s d x n (Some (be_bytes 1 x)) (Some (be_bytes 2 n)) Gs Gd (parse_print_d x 1 ltac:(lia) ltac:(lia)) (parse_print_d n 2 Hn ltac:(lia))) as HM.
  rewrite HM in H. apply ret_inj in H. subst ph. split.
  - apply pseudo4_wf; auto; [apply (parse_opt (fmt_d x) 1)|apply (parse_opt (fmt_d n) 2)]; try lia; apply parse_print_d; lia.
  - rewrite pseudo4_render by auto. unfold pseudo_header4. rewrite S1, D1. rewrite be2_mod by lia. rewrite (Z.mod_small x) by lia. reflexivity.
Qed.

Lemma pseudo_bytes6 : forall f f' b k ll ll' x n ph, emitting f f' b k HDR_IPV6 ll ll' -> 0 <= x < 256 -> 0 <= n < 4294967296 ->
  make_pseudo HDR_IPV6_PSEUDO ll x n = Ret ph -> wf_hdr false ph /\ render [ph] = pseudo_header6 b (at_byte f' k) x n.
Proof.
  intros f f' b k ll ll' x n ph E Hx Hn H.
  destruct (ip_addresses ll 128) as [s [d [Gs [Gd [As Ad]]]]].
  { exists HDR_IPV6. split; apply E. }
  { right. split; [|auto]. apply (i_name _ _ (e_inv _ _ _ _ _ _ _ E)). }
  destruct (address_bytes _ _ _ _ _ _ _ "sip" 8 16 s E (or_intror eq_refl) eq_refl (or_introl eq_refl) ltac:(vm_compute; reflexivity) ltac:(vm_compute; discriminate) ltac:(vm_compute; reflexivity) Gs) as [S1 S2].
  destruct (address_bytes _ _ _ _ _ _ _ "dip" 24 16 d E (or_intror eq_refl) eq_refl (or_intror (or_introl eq_refl)) ltac:(vm_compute; reflexivity) ltac:(vm_compute; discriminate) ltac:(vm_compute; reflexivity) Gd) as [D1 D2].
  pose proof (make_pseudo6 ll s d x n (Some (be_bytes 1 x)) (Some (be_bytes 4 n)) Gs Gd (parse_print_d x 1 ltac:(lia) ltac:(lia)) (parse_print_d n 4 ltac:(lia) ltac:(lia))) as HM.
  rewrite HM in H. apply ret_inj in H. subst ph. split.
  - apply pseudo6_wf; auto; [apply (parse_opt (fmt_d x) 1)|apply (parse_opt (fmt_d n) 4)]; try lia; apply parse_print_d; lia.
  - rewrite pseudo6_render by auto. unfold pseudo_header6. rewrite S1, D1. rewrite be4_four by lia. rewrite (Z.mod_small x) by lia. reflexivity.
Qed.

(** *** A computed checksum over a pseudo header and the rest of the frame *)
Lemma slice_len : forall (b : buf) o n, (length (slice b o n) <= n)%nat.
Proof. intros. unfold slice. rewrite firstn_length. lia. Qed.

Lemma bytes_slice : forall b o n, bytes_ok b -> bytes_ok (slice b o n).
Proof. intros. apply slice_ok; auto. Qed.

Lemma above_len : forall f f' b k t h h', emitting f f' b k t h h' -> stack_size (h' :: skipn (S k) (fr_stack f')) <= zlen b.
Proof.
  intros f f' b k t h h' E. rewrite <- (em_size _ _ _ _ _ _ _ E). unfold bytes_from.
  pose proof (emitted_length _ _ _ (e_buf _ _ _ _ _ _ _ E)) as HL. unfold start_of. rewrite !sum_sizes_stack in *.
  destruct (wf_firstn _ k (e_wf _ _ _ _ _ _ _ E)) as [W1 _]. pose proof (wf_size _ W1). unfold zlen. lia.
Qed.

Lemma render_same : forall h1 h2, h_size h1 = h_size h2 -> h_fields h1 = h_fields h2 -> render [h1] = render [h2].
Proof.
  intros [] [] H1 H2. cbn in H1, H2. subst. reflexivity.
Qed.

(** [h1] is the header with everything filled but the checksum. *)
Lemma message_checksum : forall f f' b k t h h' h1 P off, emitting f f' b k t h h' ->
  let B := skipn (S k) (fr_stack f') in
  bytes_ok P -> Nat.Even (length P) -> zlen P <= 40 -> zlen b < 131000 -> wf_hdr false h1 -> h_size h1 = h_size h' ->
  (exists j fl, index_of "chksum" (h_fields h1) = Some j /\ lone h1 j fl /\ field_data fl = None /\ f_off fl = 8 * Z.of_nat off /\ f_width fl = 16) ->
  Nat.Even off -> 8 * Z.of_nat off + 16 <= 8 * h_size h1 ->
  h_fields h' = h_fields (put "chksum" (be_bytes 2 (inet_chksum 0 (P ++ render (h1 :: B)))) h1) ->
  let m := message f' b k in summed P off m.
Proof.
  intros f f' b k t h h' h1 P off E B HP HPe HPl Hb W1 Hsz [j [fl [J1 [J2 [J3 [J4 J5]]]]]] He Hin Hh m.
  destruct (emitting_tail _ _ _ _ _ _ _ E) as [_ [WB [Wh Wh']]]. fold B in WB.
  set (c := inet_chksum 0 (P ++ render (h1 :: B))) in *. set (h2 := put "chksum" (be_bytes 2 c) h1) in *.
  assert (W2 : wf_hdr false h2). { destruct Wh' as [A1 A2]. split; unfold h2; cbn [put fmod set_fields h_size]; [lia|]. rewrite Hsz. fold h2. change (mod_first "chksum" (set_val (Some (be_bytes 2 c))) (h_fields h1)) with (h_fields h2). rewrite <- Hh. exact A2. }
  assert (Em : m = render (h2 :: B)).
  { unfold m. rewrite (em_message _ _ _ _ _ _ _ E). fold B. rewrite (render_cons h' B), (render_cons h2 B) by (constructor; auto). f_equal.
    apply render_same; auto. }
  rewrite Em. apply (checksum_stack P h1 j fl B c off); auto.
  destruct (render_spec (h1 :: B)) as [HL _]; [constructor; auto|]. rewrite zlen_app, HL, stack_size_cons, Hsz.
  pose proof (above_len _ _ _ _ _ _ _ E) as HA. rewrite stack_size_cons in HA. fold B in HA. lia.
Qed.

Lemma serialize_bytes : forall ph stk A h B b, stk = A ++ h :: B -> wf_hdr false ph -> Forall (wf_hdr false) (h :: B) ->
  serialize_from (Some ph) stk (length A) = Ret b -> b = render [ph] ++ render (h :: B).
Proof.
  intros ph stk A h B b -> Hp HW H. apply serialize_render in H; [|rewrite skipn_mid; auto|intros x Hx; apply some_inj in Hx; subst; auto].
  rewrite skipn_mid in H. apply H.
Qed.

Lemma serialize_bytes0 : forall stk A h B b, stk = A ++ h :: B -> Forall (wf_hdr false) (h :: B) ->
  serialize_from None stk (length A) = Ret b -> b = render (h :: B).
Proof.
  intros stk A h B b -> HW H. apply serialize_render in H; [|rewrite skipn_mid; auto|discriminate].
  rewrite skipn_mid in H. apply H.
Qed.

Lemma even_len : forall (P : buf) n, length P = (2 * n)%nat -> Nat.Even (length P).
Proof. intros P n H. exists n. auto. Qed.

Lemma render_len : forall h, wf_hdr false h -> Z.of_nat (length (render [h])) = h_size h /\ bytes_ok (render [h]).
Proof. intros h H. destruct (render_spec [h] ltac:(auto)) as [L [O _]]. rewrite stack_size_cons in L. change (stack_size []) with 0 in L. unfold zlen in L. split; [lia|auto]. Qed.

Lemma pseudo_size4 : forall ll x n ph, make_pseudo HDR_IPV4_PSEUDO ll x n = Ret ph -> h_size ph = 12.
Proof.
  intros ll x n ph H. unfold make_pseudo in H. binv H. binv H. binv H. binv H. binv H. binv H.
  assert (K : forall n g h h', fset n g h = Ret h' -> h_size h' = h_size h).
  { intros ? ? ? ? K. unfold fset in K. binv K. apply ret_inj in K. subst. reflexivity. }
  assert (K2 : forall n txt k h h', put_text n txt k h = Ret h' -> h_size h' = h_size h).
  { intros ? ? ? ? ? K2. unfold put_text in K2. binv K2. eapply K; eauto. }
  apply K2 in H. apply K2 in E3. apply K in E2. apply K in E0. rewrite H, E3, E2, E0. reflexivity.
Qed.

Lemma pseudo_size6 : forall ll x n ph, make_pseudo HDR_IPV6_PSEUDO ll x n = Ret ph -> h_size ph = 40.
Proof.
  intros ll x n ph H. unfold make_pseudo in H. binv H. binv H. binv H. binv H. binv H. binv H.
  assert (K : forall n g h h', fset n g h = Ret h' -> h_size h' = h_size h).
  { intros ? ? ? ? K. unfold fset in K. binv K. apply ret_inj in K. subst. reflexivity. }
  assert (K2 : forall n txt k h h', put_text n txt k h = Ret h' -> h_size h' = h_size h).
  { intros ? ? ? ? ? K2. unfold put_text in K2. binv K2. eapply K; eauto. }
  apply K2 in H. apply K2 in E3. apply K in E2. apply K in E0. rewrite H, E3, E2, E0. reflexivity.
Qed.

(** The header whose checksum is filled in: as [t], checksum missing. *)
Lemma chksum_field : forall t h off, inv t h -> varhdr t = false -> at_place t "chksum" (8 * Z.of_nat off) 16 = true ->
  match find_field t "chksum" with Some ft => f_def ft | None => None end = None -> given h "chksum" = false ->
  exists j fl, index_of "chksum" (h_fields h) = Some j /\ lone h j fl /\ field_data fl = None /\ f_off fl = 8 * Z.of_nat off /\ f_width fl = 16.
Proof.
  intros t h off I Hv Hp Hd Hg. destruct (inv_layout _ _ I Hv) as [L1 [L2 L3]].
  destruct (at_place_spec t h "chksum" _ _ L1 L2 Hp) as [j [fl [J1 [J2 [J3 [J4 J5]]]]]]. exists j, fl.
  split; [auto|split; [auto|split; [eapply given_data; eauto|auto]]].
Qed.

Lemma udp_len_inv : forall t h B, In t hdr_tmpls -> h_fill t = FL_udp_tcp -> inv t h -> inv t (udp_len h B).
Proof.
  intros t h B Ht Hf I. unfold udp_len. destruct (find_field h "len") as [fl|] eqn:E; [|rewrite setd_missing; auto].
  pose proof (fill_checked t Ht) as H. unfold fill_chk in H. rewrite !andb_true_iff in H. destruct H as [[[[[[[[_ _] _] H] _] _] _] _] _].
  destruct (find_field t "len") as [ft|] eqn:Et; [|rewrite (inv_find_none _ _ _ I Et) in E; discriminate]. rewrite Hf in H.
  destruct (has_field_get _ _ _ _ I H) as [f2 [F1 [F2 [F3 F4]]]].
  apply (wf_setd_ipv4 t h "len" _ f2); auto; try (unfold zlen; rewrite be_bytes_length; lia). apply be_bytes_ok.
Qed.

Lemma transport_checksum : forall ws f f' b k ip n x off, serialised ws f f' b -> named f k ip -> named f (S k) n -> transport n x off ->
  (ip = "ipv4"%string \/ ip = "ipv6"%string) -> user_gave f (S k) "chksum" = false -> zlen b < 131000 ->
  let m := message f' b (S k) in
  let P := if String.eqb ip "ipv4" then pseudo_header4 b (at_byte f' k) x (bytes_from f' (S k) mod 65536)
           else pseudo_header6 b (at_byte f' k) x (bytes_from f' (S k)) in
  summed P off m.
Proof.
  intros ws f f' b k ip n x off HS HN1 HN2 HTr Hip HG Hb m P.
  assert (Ht : exists t, find_tmpl n = Some t /\ h_fill t = FL_udp_tcp /\ varhdr t = false /\ h_type t = x /\ at_place t "chksum" (8 * Z.of_nat off) 16 = true /\
                match find_field t "chksum" with Some ft => f_def ft | None => None end = None /\ 8 * Z.of_nat off + 16 <= 8 * h_size t).
  { clear - HTr. destruct HTr as [[-> [-> ->]]|[-> [-> ->]]]; [exists HDR_UDP|exists HDR_TCP]; (split; [vm_compute; reflexivity|]); (split; [vm_compute; reflexivity|]);
      (split; [vm_compute; reflexivity|]); (split; [vm_compute; reflexivity|]); (split; [vm_compute; reflexivity|]); (split; [vm_compute; reflexivity|]); vm_compute; discriminate. }
  destruct Ht as [t [T1 [T2 [T3 [T4 [T5 [T6 T7]]]]]]].
  assert (Hip' : exists ti, find_tmpl ip = Some ti /\ ti = if String.eqb ip "ipv4" then HDR_IPV4 else HDR_IPV6).
  { clear - Hip. destruct Hip as [-> | ->]; [exists HDR_IPV4|exists HDR_IPV6]; (split; [vm_compute; reflexivity|reflexivity]). }
  destruct Hip' as [ti [I1 I2]].
  destruct (named_emitting _ _ _ _ _ _ _ HS HN2 T1) as [h [h' [E [_ Hk]]]].
  destruct (named_emitting _ _ _ _ _ _ _ HS HN1 I1) as [ll [ll' [El [Nl Hkl]]]].
  rewrite (gave _ _ _ _ Hk) in HG. destruct (emitting_tail _ _ _ _ _ _ _ E) as [WhB [WB [Wh Wh']]].
  pose proof (e_run _ _ _ _ _ _ _ E) as HR. rewrite T2 in HR. cbn [run_fill] in HR. apply udp_eff in HR; [|exact WhB].
  assert (HA : firstn (S k) (fr_stack f) = firstn k (fr_stack f) ++ [ll]) by (apply firstn_S_snoc; auto).
  set (B := skipn (S (S k)) (fr_stack f')) in *.
  assert (Ex : h_type h = x). { rewrite (i_type _ _ (e_inv _ _ _ _ _ _ _ E)). auto. }
  assert (Ix : 0 <= x < 256) by (destruct HTr as [[_ [-> _]]|[_ [-> _]]]; lia).
  pose proof (udp_len_inv t h B (e_tmpl _ _ _ _ _ _ _ E) T2 (e_inv _ _ _ _ _ _ _ E)) as I3.
  assert (W1 : wf_hdr false (udp_len h B)) by (eapply inv_wf; [apply (e_tmpl _ _ _ _ _ _ _ E)|exact I3]).
  destruct (inv_layout _ _ (e_inv _ _ _ _ _ _ _ E) T3) as [_ [_ L3]].
  destruct HR as [[_ [Hc|Hc]]|[_ [A' [l2 [pt [ph [pb [EA [Ep [Em [Es Eh]]]]]]]]]]].
  { rewrite HG in Hc. discriminate. }
  { specialize (Hc _ _ HA). rewrite Nl in Hc. destruct Hip as [-> | ->]; discriminate Hc. }
  assert (l2 = ll). { rewrite HA in EA. apply app_inj_tail in EA. destruct EA; auto. } subst l2. rewrite Nl in Ep. rewrite Ex in Em.
  assert (Hsz : bytes_from f' (S k) = stack_size (h :: B)).
  { rewrite (em_size _ _ _ _ _ _ _ E). fold B. rewrite !stack_size_cons, Eh. rewrite setd_size. unfold udp_len. rewrite setd_size. auto. }
  pose proof (wf_size _ WhB) as Hpos. pose proof (above_len _ _ _ _ _ _ _ E) as Hal. fold B in Hal.
  assert (Hal' : stack_size (h :: B) <= zlen b). { rewrite !stack_size_cons in *. rewrite Eh in Hal. rewrite setd_size in Hal. unfold udp_len in Hal. rewrite setd_size in Hal. auto. }
  assert (HP : wf_hdr false ph /\ render [ph] = P /\ (h_size ph = 12 \/ h_size ph = 40)).
  { assert (H64 : 0 <= stack_size (h :: B) < 2 ^ 64) by (change (2 ^ 64) with 18446744073709551616; lia).
    assert (H32 : 0 <= stack_size (h :: B) < 4294967296) by lia.
    unfold P. rewrite Hsz. destruct Hip as [-> | ->]; cbn [String.eqb pseudo_for] in *.
    - change (pseudo_for "ipv4") with (Some HDR_IPV4_PSEUDO) in Ep. apply some_inj in Ep. subst pt. subst ti.
      destruct (pseudo_bytes4 _ _ _ _ _ _ _ _ _ El Ix H64 Em) as [P1 P2]. split; [auto|split; [exact P2|]]. left. eapply pseudo_size4; eauto.
    - change (pseudo_for "ipv6") with (Some HDR_IPV6_PSEUDO) in Ep. apply some_inj in Ep. subst pt. subst ti.
      destruct (pseudo_bytes6 _ _ _ _ _ _ _ _ _ El Ix H32 Em) as [P1 P2]. split; [auto|split; [exact P2|]]. right. eapply pseudo_size6; eauto. }
  destruct HP as [WP [HP HPs]]. destruct (render_len ph WP) as [RL RO]. rewrite HP in RL, RO.
  assert (HWu : Forall (wf_hdr false) (udp_len h B :: B)) by (constructor; auto).
  pose proof (serialize_bytes ph _ _ _ _ _ eq_refl WP HWu Es) as Hpb. rewrite HP in Hpb.
  assert (Hgu : given (udp_len h B) "chksum" = false) by (unfold udp_len; rewrite setd_given by discriminate; auto).
  apply (message_checksum f f' b (S k) t h h' (udp_len h B) P off E); auto.
  - destruct HPs as [HPs|HPs]; [apply (even_len _ 6)|apply (even_len _ 20)]; lia.
  - unfold zlen. lia.
  - rewrite Eh, setd_size. auto.
  - apply (chksum_field t); auto.
  - destruct HTr as [[_ [_ ->]]|[_ [_ ->]]]; [exists 3%nat|exists 8%nat]; reflexivity.
  - unfold udp_len. rewrite setd_size. lia.
  - fold B. rewrite <- Hpb, Eh. unfold setd. rewrite Hgu. reflexivity.
Qed.

(** *** ICMP *)
Lemma icmp_checksum : forall ws f f' b k, serialised ws f f' b -> named f k "icmp" -> user_gave f k "chksum" = false -> zlen b < 131000 ->
  let m := message f' b k in
  (forall j, k = S j -> named f j "ipv6" ->
     let P := pseudo_header6 b (at_byte f' j) 58 (bytes_from f' k) in summed P 2 m) /\
  ((forall j, k = S j -> ~ named f j "ipv6") -> summed [] 2 m).
Proof.
  intros ws f f' b k HS HN HG Hb m. destruct (named_emitting _ _ _ _ _ _ HDR_ICMP HS HN ltac:(vm_compute; reflexivity)) as [h [h' [E [_ Hk]]]].
  rewrite (gave _ _ _ _ Hk) in HG. destruct (emitting_tail _ _ _ _ _ _ _ E) as [WhB [WB [Wh Wh']]].
  pose proof (e_run _ _ _ _ _ _ _ E) as HR. cbn [HDR_ICMP h_fill run_fill] in HR. apply icmp_eff in HR; [|exact WhB].
  set (B := skipn (S k) (fr_stack f')) in *. set (A := firstn k (fr_stack f)) in *.
  destruct HR as [[_ Hc]|[_ HR]]; [rewrite HG in Hc; discriminate|].
  pose proof (chksum_field HDR_ICMP h 2 (e_inv _ _ _ _ _ _ _ E) eq_refl ltac:(vm_compute; reflexivity) ltac:(vm_compute; reflexivity) HG) as HF.
  destruct (inv_layout _ _ (e_inv _ _ _ _ _ _ _ E) eq_refl) as [_ [_ L3]]. change (h_size HDR_ICMP) with 8 in L3.
  pose proof (wf_size _ WhB) as Hpos. pose proof (above_len _ _ _ _ _ _ _ E) as Hal. fold B in Hal.
  assert (HAn : forall j, k = S j -> exists ll, A = firstn j (fr_stack f) ++ [ll] /\ nth_error (fr_stack f) j = Some ll).
  { intros j ->. destruct (below_some _ _ _ j _ Hk ltac:(lia)) as [ll Hll]. exists ll. split; [apply firstn_S_snoc; auto|auto]. }
  assert (HA0 : k = 0%nat -> A = []) by (intros ->; reflexivity).
  destruct HR as [[A' [ll [ph [pb [EA [Nl [Em [Es Eh]]]]]]]]|[pb [Hno [Es Eh]]]].
  - assert (Hj : exists j, k = S j). { destruct k as [|j]; [rewrite HA0 in EA by auto; destruct A'; discriminate|eauto]. } destruct Hj as [j Hj].
    destruct (HAn j Hj) as [l2 [EA2 Hkl]]. assert (l2 = ll) by (rewrite EA2 in EA; apply app_inj_tail in EA; destruct EA; auto). subst l2.
    split.
    2:{ intros Hn. exfalso. apply (Hn j Hj). exists ll. auto. }
    intros j2 Hj2 HN2 P. assert (j2 = j) by lia. subst j2.
    destruct (named_emitting _ _ _ _ _ _ HDR_IPV6 HS HN2 ltac:(vm_compute; reflexivity)) as [l3 [ll' [El [_ Hkl3]]]].
    assert (l3 = ll) by congruence. subst l3.
    assert (Hsz : bytes_from f' k = stack_size (h :: B)).
    { rewrite (em_size _ _ _ _ _ _ _ E). fold B. rewrite !stack_size_cons, Eh. cbn [set_type h_size]. rewrite setd_size. auto. }
    assert (Hal' : stack_size (h :: B) <= zlen b). { rewrite !stack_size_cons in *. rewrite Eh in Hal. cbn [set_type h_size] in Hal. rewrite setd_size in Hal. auto. }
    assert (H32 : 0 <= stack_size (h :: B) < 4294967296) by lia.
    destruct (pseudo_bytes6 _ _ _ _ _ _ 58 _ _ El ltac:(lia) H32 Em) as [WP HP]. rewrite <- Hsz in HP. fold P in HP.
    pose proof (pseudo_size6 _ _ _ _ Em) as HPs. destruct (render_len ph WP) as [RL RO]. rewrite HP in RL, RO.
    assert (HW58 : Forall (wf_hdr false) (set_type 58 h :: B)) by (constructor; [destruct Wh; split; auto|auto]).
    pose proof (serialize_bytes ph _ _ _ _ _ eq_refl WP HW58 Es) as Hpb. rewrite HP in Hpb.
    apply (message_checksum f f' b k HDR_ICMP h h' h P 2 E); auto.
    + apply (even_len _ 20); lia.
    + unfold zlen. lia.
    + rewrite Eh. cbn [set_type h_size]. rewrite setd_size. auto.
    + exists 1%nat. reflexivity.
    + rewrite L3. lia.
    + fold B. rewrite Eh. unfold setd. rewrite HG. rewrite Hpb. reflexivity.
  - split.
    { intros j Hj [ll [Hll Hnl]] P. exfalso. destruct (HAn j Hj) as [l2 [EA2 Hkl]]. apply (Hno _ _ EA2). congruence. }
    intros _. apply (message_checksum f f' b k HDR_ICMP h h' h [] 2 E); auto.
    + constructor.
    + exists 0%nat. reflexivity.
    + vm_compute. discriminate.
    + rewrite Eh, setd_size. auto.
    + exists 1%nat. reflexivity.
    + rewrite L3. lia.
    + fold B. cbn [app]. rewrite Eh. unfold setd. rewrite HG. rewrite (serialize_bytes0 _ _ _ _ _ eq_refl WhB Es). reflexivity.
Qed.

(** *** IGMP *)
Lemma igmp_lone : forall q r s v, v 2%nat = None -> exists j fl, index_of "chksum" (h_fields (igmp_laid q r s v)) = Some j /\ lone (igmp_laid q r s v) j fl /\ field_data fl = None /\ f_off fl = 8 * Z.of_nat 2 /\ f_width fl = 16.
Proof.
  intros q r s v Hv. exists 2%nat.
  assert (HC : lone_chk (map lay (h_fields (igmp_laid q r s v))) 2 16 16 = true) by (destruct q, r; vm_compute; reflexivity).
  destruct (lone_chk_spec _ _ _ _ HC) as [fl [H1 [H2 H3]]]. exists fl. split; [reflexivity|]. split; [auto|]. split; [|auto].
  destruct H1 as [H1 _]. cbn in H1. apply some_inj in H1. subst fl. unfold field_data. cbn [f_val f_def]. rewrite Hv. auto.
Qed.

Lemma igmp_eff : forall A h B h', inv HDR_IGMP h -> Forall (wf_hdr false) (h :: B) ->
  igmp_fill_defaults (A ++ h :: B) (length A) = Ret (A ++ h' :: B) ->
  exists s v q r, h = igmp_hdr s v /\ q = existsb (given h) query_fields /\ r = existsb (given h) report_fields /\
    wf_hdr false (igmp_laid q r s v) /\
    ((given h "chksum" = true /\ h' = igmp_laid q r s v) \/
     (given h "chksum" = false /\ v 2%nat = None /\ h' = put "chksum" (be_bytes 2 (inet_chksum 0 (render (igmp_laid q r s v :: B)))) (igmp_laid q r s v))).
Proof.
  intros A h B h' I HW H. destruct (igmp_shape h I) as [s [v E]]. exists s, v, (existsb (given h) query_fields), (existsb (given h) report_fields).
  pose proof (Forall_inv_tail HW) as WB. split; [auto|]. split; [auto|]. split; [auto|].
  destruct (igmp_laid_ok (existsb (given h) query_fields) (existsb (given h) report_fields) s v) as [W _]; [rewrite <- E; apply I|rewrite <- E; auto|rewrite <- E; auto|].
  split; [exact W|]. unfold igmp_fill_defaults in H. mid H. cbn [bind] in H.
  assert (G1 : fget h "chksum" = Ret (MkField "chksum" (s 2%nat) 16 16 None (v 2%nat) FP_default)) by (rewrite E; reflexivity).
  assert (G2 : group_layout 4 ["ga"] h = Ret (igmp_laid (existsb (given h) query_fields) (existsb (given h) report_fields) s v)) by (rewrite E; apply igmp_group).
  rewrite G1 in H. cbn [bind] in H. rewrite G2 in H. cbn [bind f_val] in H. apply fget_inv in G1.
  destruct (v 2%nat) eqn:Ev.
  - left. split; [eapply given_some; [exact G1|cbn; eauto]|]. apply ret_inj in H. mid H. apply mid_inj in H. auto.
  - right. split; [eapply given_none; [exact G1|cbn; auto]|]. split; [auto|]. binv H. binv H. apply ret_inj in H. mid H. apply mid_inj in H. subst a0. mid E0.
    apply serialize_bytes0 with (A := A) (h := igmp_laid (existsb (given h) query_fields) (existsb (given h) report_fields) s v) (B := B) in E0; [|auto|constructor; auto].
    rewrite <- E0. eapply (put_hex "chksum" _ 2); eauto; [|lia]. pose proof (inet_range 0 a). lia.
Qed.

Lemma igmp_checksum : forall ws f f' b k, serialised ws f f' b -> named f k "igmp" -> user_gave f k "chksum" = false -> zlen b < 131000 ->
  let m := message f' b k in summed [] 2 m.
Proof.
  intros ws f f' b k HS HN HG Hb m. destruct (named_emitting _ _ _ _ _ _ HDR_IGMP HS HN ltac:(vm_compute; reflexivity)) as [h [h' [E [_ Hk]]]].
  rewrite (gave _ _ _ _ Hk) in HG. destruct (emitting_tail _ _ _ _ _ _ _ E) as [WhB [WB [Wh Wh']]].
  pose proof (e_run _ _ _ _ _ _ _ E) as HR. cbn [HDR_IGMP h_fill run_fill] in HR. apply igmp_eff in HR; [|apply E|exact WhB].
  destruct HR as [s [v [q [r [_ [_ [_ [W1 [[Hc _]|[_ [Hv Eh]]]]]]]]]]]; [rewrite HG in Hc; discriminate|].
  apply (message_checksum f f' b k HDR_IGMP h h' (igmp_laid q r s v) [] 2 E); auto.
  - constructor.
  - exists 0%nat. reflexivity.
  - vm_compute. discriminate.
  - rewrite Eh. reflexivity.
  - apply igmp_lone; auto.
  - exists 1%nat. reflexivity.
  - destruct q, r; vm_compute; discriminate.
  - rewrite Eh. reflexivity.
Qed.

(** *** MLD *)
Lemma mld_lone : forall q r s v, v 2%nat = None -> exists j fl, index_of "chksum" (h_fields (mld_laid q r s v)) = Some j /\ lone (mld_laid q r s v) j fl /\ field_data fl = None /\ f_off fl = 8 * Z.of_nat 2 /\ f_width fl = 16.
Proof.
  intros q r s v Hv. exists 2%nat.
  assert (HC : lone_chk (map lay (h_fields (mld_laid q r s v))) 2 16 16 = true) by (destruct q, r; vm_compute; reflexivity).
  destruct (lone_chk_spec _ _ _ _ HC) as [fl [H1 [H2 H3]]]. exists fl. split; [reflexivity|]. split; [auto|]. split; [|auto].
  destruct H1 as [H1 _]. cbn in H1. apply some_inj in H1. subst fl. unfold field_data. cbn [f_val f_def]. rewrite Hv. auto.
Qed.

Lemma inet_split : forall P b, bytes_ok P -> bytes_ok b -> Nat.Even (length P) -> zlen (P ++ b) < 131072 ->
  inet_chksum (chksum_loop 0 P) b = inet_chksum 0 (P ++ b).
Proof.
  intros P b HP Hb He Hl. assert (HPb : bytes_ok (P ++ b)) by (apply bytes_ok_app; auto).
  pose proof (host_bound _ HPb Hl) as Hx. rewrite host_sum_app in Hx by auto.
  destruct (host_words P HP) as [k1 [_ [_ [K1 _]]]]. destruct (host_words b Hb) as [k2 [_ [_ [K2 _]]]].
  rewrite (chksum_loop_sum P 0) by (auto; lia). rewrite !inet_chksum_val by (auto; try rewrite host_sum_app by auto; lia).
  rewrite host_sum_app by auto. do 2 f_equal.
Qed.

Lemma mld_eff : forall A h B h', inv HDR_MLD h -> regular h = true -> Forall (wf_hdr false) (h :: B) ->
  mld_fill_defaults (A ++ h :: B) (length A) = Ret (A ++ h' :: B) ->
  exists s v q r, h = mld_hdr s v /\ q = existsb (given h) query_fields /\ r = existsb (given h) report_fields /\
    wf_hdr false (mld_laid q r s v) /\
    ((given h "chksum" = true /\ h' = mld_laid q r s v) \/
     (given h "chksum" = false /\ v 2%nat = None /\ exists ip sf df sip dip b, find (fun x => String.eqb (h_name x) "ipv6") A = Some ip /\
        find_field ip "sip" = Some sf /\ find_field ip "dip" = Some df /\ f_val sf = Some sip /\ f_val df = Some dip /\ zlen sip = 16 /\ zlen dip = 16 /\
        b = render (mld_laid q r s v :: B) /\
        h' = put "chksum" (be_bytes 2 (inet_chksum (chksum_loop 0 (sip ++ dip ++ be_bytes 4 (zlen b) ++ [0; 0; 0; 58])) b)) (mld_laid q r s v))).
Proof.
  intros A h B h' I HR HW H. destruct (mld_shape h I) as [s [v E]]. exists s, v, (existsb (given h) query_fields), (existsb (given h) report_fields).
  pose proof (Forall_inv_tail HW) as WB. split; [auto|]. split; [auto|]. split; [auto|].
  destruct (mld_laid_ok (existsb (given h) query_fields) (existsb (given h) report_fields) s v) as [W _]; [rewrite <- E; apply I|rewrite <- E; auto|rewrite <- E; auto|].
  assert (W1 : wf_hdr false (mld_laid (existsb (given h) query_fields) (existsb (given h) report_fields) s v)).
  { apply W. unfold regular in HR. rewrite E in HR at 1. cbn [mld_hdr h_fill] in HR. apply negb_true_iff in HR. exact HR. }
  split; [exact W1|]. unfold mld_fill_defaults in H. mid H. cbn [bind] in H.
  assert (G1 : fget h "chksum" = Ret (MkField "chksum" (s 2%nat) 16 16 None (v 2%nat) FP_default)) by (rewrite E; reflexivity).
  assert (G2 : group_layout 20 ["ga"; "max_resp"; "rsv"] h = Ret (mld_laid (existsb (given h) query_fields) (existsb (given h) report_fields) s v)) by (rewrite E; apply mld_group).
  rewrite G1 in H. cbn [bind] in H. rewrite G2 in H. cbn [bind f_val] in H. apply fget_inv in G1.
  set (hl := mld_laid (existsb (given h) query_fields) (existsb (given h) report_fields) s v) in *.
  destruct (v 2%nat) eqn:Ev.
  - left. split; [eapply given_some; [exact G1|cbn; eauto]|]. apply ret_inj in H. mid H. apply mid_inj in H. auto.
  - right. split; [eapply given_none; [exact G1|cbn; auto]|]. split; [auto|].
    unfold find_ipv6 in H. rewrite firstn_app, firstn_all, Nat.sub_diag in H. cbn [firstn] in H. rewrite app_nil_r in H.
    destruct (find (fun h0 => String.eqb (h_name h0) "ipv6") A) as [ip|]; [|discriminate]. destruct (find_field ip "sip") as [sf|] eqn:Fs; [|discriminate]. destruct (find_field ip "dip") as [df|] eqn:Fd; [|discriminate].
    destruct (f_val sf) as [sip|] eqn:Vs; [|discriminate]. destruct (f_val df) as [dip|] eqn:Vd; [|discriminate].
    destruct ((zlen sip =? 16) && (zlen dip =? 16)) eqn:El; [|discriminate]. apply andb_true_iff in El. destruct El as [L1 L2].
    binv H. binv H. binv H. apply ret_inj in H. mid H. apply mid_inj in H. subst a1. mid E0. mid E1.
    assert (HWl : Forall (wf_hdr false) (hl :: B)) by (constructor; auto).
    apply serialize_bytes0 with (A := A) (h := hl) (B := B) in E1; [|auto|auto]. apply len_from_inv in E0. rewrite skipn_mid in E0. destruct E0 as [-> _].
    exists ip, sf, df, sip, dip, a0. repeat (split; [auto; try lia|]).
    assert (Hz : zlen a0 = stack_size (hl :: B)) by (rewrite E1; apply render_spec; auto). rewrite Hz.
    eapply (put_hex "chksum" _ 2); eauto; [|lia]. pose proof (inet_range (chksum_loop 0 (sip ++ dip ++ be_bytes 4 (stack_size (hl :: B)) ++ [0; 0; 0; 58])) a0). lia.
Qed.

Lemma find_first_named : forall (l : list hdr) n x, find (fun h => String.eqb (h_name h) n) l = Some x ->
  exists j, nth_error l j = Some x /\ h_name x = n /\ forall i y, (i < j)%nat -> nth_error l i = Some y -> h_name y <> n.
Proof.
  induction l as [|a l IH]; intros n x H; [discriminate|]. cbn [find] in H. destruct (String.eqb_spec (h_name a) n) as [E|E].
  - apply some_inj in H. subst a. exists 0%nat. split; [reflexivity|]. split; [auto|]. intros i y Hi. lia.
  - destruct (IH _ _ H) as [j [H1 [H2 H3]]]. exists (S j). split; [auto|]. split; [auto|]. intros [|i] y Hi Hy; [cbn in Hy; congruence|]. apply (H3 i); auto. lia.
Qed.

Lemma skipn_exact : forall (v : buf) n, zlen v = Z.of_nat n -> forall nm s o p, fbytes (MkField nm s (8 * Z.of_nat n) o None (Some v) p) = v.
Proof.
  intros v n H nm s o p. unfold fbytes. cbn [f_width field_data f_val]. replace (Z.to_nat (8 * Z.of_nat n / 8)) with n by lia.
  replace (length v - n)%nat with 0%nat by (unfold zlen in H; lia). reflexivity.
Qed.

Lemma mld_checksum : forall ws f f' b k j, serialised ws f f' b -> named f k "mld" -> user_gave f k "chksum" = false -> zlen b < 131000 ->
  (j < k)%nat -> named f j "ipv6" -> (forall i, (i < j)%nat -> ~ named f i "ipv6") ->
  let m := message f' b k in
  let P := pseudo_header6 b (at_byte f' j) 58 (bytes_from f' k) in summed P 2 m.
Proof.
  intros ws f f' b k j HS HN HG Hb Hjk HN6 Hfirst m P. destruct (named_emitting _ _ _ _ _ _ HDR_MLD HS HN ltac:(vm_compute; reflexivity)) as [h [h' [E [_ Hk]]]].
  destruct (named_emitting _ _ _ _ _ _ HDR_IPV6 HS HN6 ltac:(vm_compute; reflexivity)) as [ll [ll' [El [Nl Hkl]]]].
  rewrite (gave _ _ _ _ Hk) in HG. destruct (emitting_tail _ _ _ _ _ _ _ E) as [WhB [WB [Wh Wh']]].
  assert (Hreg : regular h = true). { destruct HS as [_ [HR _]]. rewrite Forall_forall in HR. apply HR. eapply nth_error_In; eauto. }
  set (B := skipn (S k) (fr_stack f')) in *.
  pose proof (above_len _ _ _ _ _ _ _ E) as Hal. fold B in Hal.
  assert (Hsmall : stack_size B <= zlen b). { rewrite stack_size_cons in Hal. destruct Wh'. lia. }
  pose proof (e_run _ _ _ _ _ _ _ E) as HR. cbn [HDR_MLD h_fill run_fill] in HR.
  apply mld_eff in HR; [|apply E|exact Hreg|exact WhB].
  destruct HR as [s [v [q [r [_ [_ [_ [W1 HR]]]]]]]]. destruct HR as [[Hc _]|[_ [Hv HR]]]; [rewrite HG in Hc; discriminate|].
  destruct HR as [ip [sf [df [sip [dip [b0 [F1 [F2 [F3 [F4 [F5 [F6 [F7 [F8 Eh]]]]]]]]]]]]]].
  set (hl := mld_laid q r s v) in *. fold B in F8.
  destruct (find_first_named _ _ _ F1) as [j2 [G1 [G2 G3]]].
  assert (Hj2 : (j2 < length (firstn k (fr_stack f)))%nat) by (apply nth_error_Some; congruence). rewrite firstn_length in Hj2.
  rewrite nth_firstn in G1 by lia.
  assert (j2 = j).
  { destruct (Nat.lt_trichotomy j2 j) as [Hx|[Hx|Hx]]; auto.
    - exfalso. apply (Hfirst j2 Hx). exists ip. auto.
    - exfalso. apply (G3 j ll Hx); auto. rewrite nth_firstn by lia. auto. }
  subst j2. assert (ip = ll) by congruence. subst ip.
  assert (Gs : fget ll "sip" = Ret sf) by (unfold fget; rewrite F2; auto). assert (Gd : fget ll "dip" = Ret df) by (unfold fget; rewrite F3; auto).
  destruct (address_bytes _ _ _ _ _ _ _ "sip" 8 16 sf El (or_intror eq_refl) eq_refl (or_introl eq_refl) ltac:(vm_compute; reflexivity) ltac:(vm_compute; discriminate) ltac:(vm_compute; reflexivity) Gs) as [S1 S2].
  destruct (address_bytes _ _ _ _ _ _ _ "dip" 24 16 df El (or_intror eq_refl) eq_refl (or_intror (or_introl eq_refl)) ltac:(vm_compute; reflexivity) ltac:(vm_compute; discriminate) ltac:(vm_compute; reflexivity) Gd) as [D1 D2].
  rewrite F4 in S1, S2. rewrite F5 in D1, D2. rewrite skipn_exact in S1, D1 by lia.
  destruct (S2 sip eq_refl) as [_ [S3 _]]. destruct (D2 dip eq_refl) as [_ [D3 _]].
  assert (HWl : Forall (wf_hdr false) (hl :: B)) by (constructor; auto).
  destruct (render_spec _ HWl) as [RL [RO _]].
  assert (Hsz : bytes_from f' k = zlen b0).
  { rewrite (em_size _ _ _ _ _ _ _ E). fold B. rewrite F8, RL, !stack_size_cons, Eh. reflexivity. }
  assert (Hz : 0 <= zlen b0 <= zlen b). { split; [unfold zlen; lia|]. rewrite <- Hsz, (em_size _ _ _ _ _ _ _ E). exact Hal. }
  assert (HP : P = sip ++ dip ++ be_bytes 4 (zlen b0) ++ [0; 0; 0; 58]).
  { unfold P, pseudo_header6. rewrite S1, D1, Hsz. rewrite be4_four by lia. reflexivity. }
  rewrite <- HP in Eh.
  assert (HPok : bytes_ok P).
  { rewrite HP. rewrite !bytes_ok_app. split; [auto|split; [auto|split; [apply be_bytes_ok|]]]. repeat (constructor; [unfold byte_ok; lia|]). constructor. }
  assert (HPl : length P = 40%nat). { rewrite HP, !app_length, be_bytes_length. unfold zlen in F6, F7. cbn [length]. lia. }
  assert (HPe : Nat.Even (length P)) by (apply (even_len _ 20); lia).
  rewrite inet_split in Eh; [|auto|rewrite F8; auto|auto|rewrite zlen_app; unfold zlen at 1; rewrite HPl; lia].
  rewrite F8 in Eh.
  apply (message_checksum f f' b k HDR_MLD h h' hl P 2 E); auto.
  - unfold zlen. lia.
  - rewrite Eh. reflexivity.
  - apply mld_lone; auto.
  - exists 1%nat. reflexivity.
  - destruct q, r; vm_compute; discriminate.
  - fold B. rewrite Eh. reflexivity.
Qed.

(** Every filler, run on a stack of parsed headers, ends without undefined
    behaviour and changes one header only. *)

From Verif Require Import PTextIp Frame PSer SpecParse PParse PMatch SpecFrame PFrame PInv PStep PArgs PSoft.

Lemma hget_ok : forall stk i h, nth_error stk i = Some h -> hget stk i = Ret h.
Proof. intros stk i h H. unfold hget. rewrite H. auto. Qed.

(** Stack positions: header [i] is as parsed, the ones before it too. *)
Record at_pos (a : bool) (stk : list hdr) (i : nat) (t h : hdr) : Prop := MkAt {
  a_nth : nth_error stk i = Some h;
  a_in : In t hdr_tmpls;
  a_inv : inv t h;
  a_low : Forall parsed (firstn i stk);
  a_good : Forall (good a) stk;
  a_reg : a = false -> regular h = true }.

Lemma ether_fills : forall a stk i t h, at_pos a stk i t h -> h_fill t = FL_ether ->
  fills a t h stk i (ether_type_fill_defaults stk i).
Proof.
  intros a stk i t h A Hf. destruct A as [Hn Ht I _ _ _]. unfold ether_type_fill_defaults. rewrite (hget_ok _ _ _ Hn). cbn [bind].
  destruct (req_get t h "et" 16 Ht I) as [f [Ff [Gf [Wf Vf]]]]; [rewrite Hf; left; auto|]. rewrite Gf. cbn [bind].
  destruct (f_val f); [apply fills_same; auto|]. destruct (nth_error stk (S i)) as [nx|]; [|apply fills_same; auto].
  destruct (put_text_ok t h "et" f (fmt_d (h_type nx)) 2 Ht I Ff Vf) as [o [Ho [Hp Ip]]]; [lia|lia|lia|].
  rewrite Hp. cbn [bind]. eexists. split; [reflexivity|]. apply filled_inv; auto.
Qed.

Lemma proto_ok : forall t h n stk i, In t hdr_tmpls -> inv t h -> In (n, 8) (req (h_fill t)) ->
  exists h', fill_proto n stk i h = Ret h' /\ inv t h'.
Proof.
  intros t h n stk i Ht I Hin. unfold fill_proto.
  destruct (req_get t h n 8 Ht I Hin) as [f [Ff [Gf [Wf Vf]]]]. rewrite Gf. cbn [bind].
  destruct (f_val f); [eauto|].
  destruct (put_text_ok t h n f (match nth_error stk (S i) with Some nx => fmt_d (h_type nx) | None => "17" end) 1 Ht I Ff Vf) as [o [Ho [Hp Ip]]]; [lia|lia|lia|].
  rewrite Hp. eauto.
Qed.

Lemma ipv4_fills : forall a stk i t h, at_pos a stk i t h -> h_fill t = FL_ipv4 -> fills a t h stk i (ipv4_fill_defaults stk i).
Proof.
  intros a stk i t h A Hf. destruct A as [Hn Ht I _ Hs _]. unfold ipv4_fill_defaults. rewrite (hget_ok _ _ _ Hn). cbn [bind].
  destruct (proto_ok t h "proto" stk i Ht I) as [h1 [E1 I1]]; [rewrite Hf; left; auto|]. rewrite E1. cbn [bind].
  destruct (req_get t h1 "len" 16 Ht I1) as [f [Ff [Gf [Wf Vf]]]]; [rewrite Hf; right; left; auto|]. rewrite Gf. cbn [bind].
  eapply okp_bind with (P := fun h => inv t h).
  { destruct (f_val f); [exact I1|]. eapply okp_bind; [apply len_from_soft, good_skipn; auto|]. intros k _.
    destruct (put_text_ok t h1 "len" f (fmt_d k) 2 Ht I1 Ff Vf) as [o [Ho [Hp Ip]]]; [lia|lia|lia|]. rewrite Hp. exact Ip. }
  intros h2 I2.
  destruct (req_get t h2 "chksum" 16 Ht I2) as [f2 [Ff2 [Gf2 [Wf2 Vf2]]]]; [rewrite Hf; right; right; left; auto|]. rewrite Gf2. cbn [bind].
  eapply okp_bind with (P := fun h => inv t h).
  { destruct (f_val f2); [exact I2|]. assert (Hsz : h_size h2 = 20).
    { pose proof (tmpl_ipv4 t Ht Hf) as ->. destruct (i_fix _ _ I2 eq_refl) as [_ E]. exact E. }
    eapply okp_bind; [apply copy_hdr_good; [lia|apply balloc_bytes|rewrite zlen_balloc; lia|eapply inv_good; eauto]|]. intros b _.
    destruct (put_text_ok t h2 "chksum" f2 (fmt_d (inet_chksum 0 b)) 2 Ht I2 Ff2 Vf2) as [o [Ho [Hp Ip]]]; [lia|lia|lia|]. rewrite Hp. exact Ip. }
  intros h3 I3. exists h3. split; auto. apply filled_inv; auto.
Qed.

Lemma ipv6_fills : forall a stk i t h, at_pos a stk i t h -> h_fill t = FL_ipv6 -> fills a t h stk i (ipv6_fill_defaults stk i).
Proof.
  intros a stk i t h A Hf. destruct A as [Hn Ht I _ Hs _]. unfold ipv6_fill_defaults. rewrite (hget_ok _ _ _ Hn). cbn [bind].
  destruct (proto_ok t h "next" stk i Ht I) as [h1 [E1 I1]]; [rewrite Hf; left; auto|]. rewrite E1. cbn [bind].
  destruct (req_get t h1 "len" 16 Ht I1) as [f [Ff [Gf [Wf Vf]]]]; [rewrite Hf; right; left; auto|]. rewrite Gf. cbn [bind].
  eapply okp_bind with (P := fun h => inv t h).
  { destruct (f_val f); [exact I1|]. eapply okp_bind; [apply len_from_soft, good_skipn; auto|]. intros k _.
    destruct (put_text_ok t h1 "len" f (fmt_d k) 2 Ht I1 Ff Vf) as [o [Ho [Hp Ip]]]; [lia|lia|lia|]. rewrite Hp. exact Ip. }
  intros h3 I3. exists h3. split; auto. apply filled_inv; auto.
Qed.

(** *** The pseudo headers *)
Definition pseudo4 (s d o n : option buf) : hdr :=
  MkHdr "ipv4-pseudo" 0 12
    [MkField "sip" false 32 0 None s FP_default; MkField "dip" false 32 32 None d FP_default;
     MkField "zero" false 8 64 None None FP_default; MkField "proto" false 8 72 None o FP_default;
     MkField "len" false 16 80 None n FP_default] FL_none HP_none.

Definition pseudo6 (s d o n : option buf) : hdr :=
  MkHdr "ipv6-pseudo" 0 40
    [MkField "sip" false 128 0 None s FP_default; MkField "dip" false 128 128 None d FP_default;
     MkField "len" false 32 256 None n FP_default; MkField "zero" false 24 288 None None FP_default;
     MkField "proto" false 8 312 None o FP_default] FL_none HP_none.


Lemma make_pseudo4 : forall ll s d p n op on, fget ll "sip" = Ret s -> fget ll "dip" = Ret d ->
  parse_bytes (fmt_d p) 1 = Ret op -> parse_bytes (fmt_d n) 2 = Ret on ->
  make_pseudo HDR_IPV4_PSEUDO ll p n = Ret (pseudo4 (f_val s) (f_val d) op on).
Proof.
  intros ll s d p n op on Hs Hd Hp Hn. unfold make_pseudo, put_text. rewrite Hs, Hd, Hp. cbn [bind]. 
  change (fset "sip" (set_val (f_val s)) HDR_IPV4_PSEUDO) with (Ret (pseudo4 (f_val s) None None None)). cbn [bind].
  change (fset "dip" (set_val (f_val d)) (pseudo4 (f_val s) None None None)) with (Ret (pseudo4 (f_val s) (f_val d) None None)). cbn [bind].
  change (fset "proto" (set_val op) (pseudo4 (f_val s) (f_val d) None None)) with (Ret (pseudo4 (f_val s) (f_val d) op None)). cbn [bind].
  change (fget (pseudo4 (f_val s) (f_val d) op None) "len") with (Ret (MkField "len" false 16 80 None None FP_default)). cbn [bind f_width].
  change (16 ÷ 8) with 2. rewrite Hn. reflexivity.
Qed.

Lemma make_pseudo6 : forall ll s d p n op on, fget ll "sip" = Ret s -> fget ll "dip" = Ret d ->
  parse_bytes (fmt_d p) 1 = Ret op -> parse_bytes (fmt_d n) 4 = Ret on ->
  make_pseudo HDR_IPV6_PSEUDO ll p n = Ret (pseudo6 (f_val s) (f_val d) op on).
Proof.
  intros ll s d p n op on Hs Hd Hp Hn. unfold make_pseudo, put_text. rewrite Hs, Hd, Hp. cbn [bind]. 
  change (fset "sip" (set_val (f_val s)) HDR_IPV6_PSEUDO) with (Ret (pseudo6 (f_val s) None None None)). cbn [bind].
  change (fset "dip" (set_val (f_val d)) (pseudo6 (f_val s) None None None)) with (Ret (pseudo6 (f_val s) (f_val d) None None)). cbn [bind].
  change (fset "proto" (set_val op) (pseudo6 (f_val s) (f_val d) None None)) with (Ret (pseudo6 (f_val s) (f_val d) op None)). cbn [bind].
  change (fget (pseudo6 (f_val s) (f_val d) op None) "len") with (Ret (MkField "len" false 32 256 None None FP_default)). cbn [bind f_width].
  change (32 ÷ 8) with 4. rewrite Hn. reflexivity.
Qed.

Definition addr_ok (w : Z) (f : field) : Prop := f_width f = w /\ fok f.

Definition opt_ok (w : Z) (o : option buf) : Prop :=
  forall v, o = Some v -> w <= 8 * zlen v /\ bytes_ok v /\ zlen v <= size_limit + 1.

Lemma addr_opt : forall w f, addr_ok w f -> opt_ok w (f_val f).
Proof.
  intros w f [H1 H2] v Hv. destruct (H2 v) as [K1 [K2 [K3 _]]]; [unfold field_data; rewrite Hv; auto|]. repeat split; auto. lia.
Qed.

Lemma parse_opt : forall txt k o, 0 <= k <= 8 -> parse_bytes txt k = Ret o -> opt_ok (8 * k) o.
Proof.
  intros txt k o Hk Ho v ->. destruct (parse_bytes_len txt k v (proj1 Hk) Ho). pose proof size_limit_val. repeat split; auto; lia.
Qed.

Lemma wf_opt : forall n s w off v p size, opt_ok w v -> 0 <= off -> 0 <= w -> off + w <= 8 * size ->
  wf_src false size (MkField n s w off None v p).
Proof.
  intros n s w off v p size H H0 H1 H2. split; [cbn [f_width]; lia|]. intros x Hx. cbn in Hx. destruct v as [y|]; [|discriminate].
  apply some_inj in Hx. subst y. destruct (H x eq_refl) as [K1 [K2 K3]]. cbn [f_width f_off]. repeat split; auto; try lia.
  apply small_lim. pose proof size_limit_val. lia.
Qed.

Lemma opt_ok_none : forall w, opt_ok w None.
Proof. intros w v H. discriminate. Qed.

Lemma pseudo4_wf : forall s d p n, opt_ok 32 s -> opt_ok 32 d -> opt_ok 8 p -> opt_ok 16 n -> wf_hdr false (pseudo4 s d p n).
Proof.
  intros s d p n Hs Hd Hp Hn. split; [cbn; lia|]. unfold pseudo4. cbn [h_fields h_size].
  repeat match goal with |- Forall _ (_ :: _) => constructor | |- Forall _ [] => constructor end;
    (apply wf_opt; [auto using opt_ok_none|lia|lia|lia]).
Qed.

Lemma pseudo6_wf : forall s d p n, opt_ok 128 s -> opt_ok 128 d -> opt_ok 8 p -> opt_ok 32 n -> wf_hdr false (pseudo6 s d p n).
Proof.
  intros s d p n Hs Hd Hp Hn. split; [cbn; lia|]. unfold pseudo6. cbn [h_fields h_size].
  repeat match goal with |- Forall _ (_ :: _) => constructor | |- Forall _ [] => constructor end;
    (apply wf_opt; [auto using opt_ok_none|lia|lia|lia]).
Qed.

Lemma pseudo4_good : forall a s d p n, opt_ok 32 s -> opt_ok 32 d -> opt_ok 8 p -> opt_ok 16 n -> good a (pseudo4 s d p n).
Proof.
  intros. split; [|intros _; apply pseudo4_wf; auto]. split; [cbn; lia|]. unfold pseudo4. cbn [h_fields]. repeat constructor; cbn; lia.
Qed.
Lemma pseudo6_good : forall a s d p n, opt_ok 128 s -> opt_ok 128 d -> opt_ok 8 p -> opt_ok 32 n -> good a (pseudo6 s d p n).
Proof.
  intros. split; [|intros _; apply pseudo6_wf; auto]. split; [cbn; lia|]. unfold pseudo6. cbn [h_fields]. repeat constructor; cbn; lia.
Qed.

Lemma ip_addresses : forall ll w, parsed ll -> (h_name ll = "ipv4"%string /\ w = 32) \/ (h_name ll = "ipv6"%string /\ w = 128) ->
  exists s d, fget ll "sip" = Ret s /\ fget ll "dip" = Ret d /\ addr_ok w s /\ addr_ok w d.
Proof.
  intros ll w [t [Ht I]] Hn. pose proof (fill_checked t Ht) as H. unfold fill_chk in H. rewrite !andb_true_iff in H.
  destruct H as [[[[[[[[_ H] _] _] _] _] _] _] _].
  assert (E : (String.eqb (h_name t) "ipv4" || String.eqb (h_name t) "ipv6") = true).
  { rewrite <- (i_name _ _ I), orb_true_iff, !String.eqb_eq. intuition. }
  rewrite E in H.
  assert (Ew : (if String.eqb (h_name t) "ipv4" then 32 else 128) = w).
  { rewrite <- (i_name _ _ I). destruct Hn as [[-> ->]|[-> ->]]; reflexivity. }
  cbv zeta in H. rewrite Ew in H. apply andb_true_iff in H. destruct H as [H1 H2].
  destruct (has_field_get _ _ _ _ I H1) as [s [Fs [Gs [Ws _]]]]. destruct (has_field_get _ _ _ _ I H2) as [d [Fd [Gd [Wd _]]]].
  exists s, d. pose proof (i_val _ _ I) as J. rewrite Forall_forall in J.
  split; [auto|split; [auto|split; (split; [auto|apply J])]]; [apply (find_field_in _ _ _ Fs)|apply (find_field_in _ _ _ Fd)].
Qed.

Lemma parsed_below : forall stk i j ll, Forall parsed (firstn i stk) -> (j < i)%nat -> nth_error stk j = Some ll -> parsed ll.
Proof.
  intros stk i j ll H Hj Hn. rewrite Forall_forall in H. apply H. rewrite <- (firstn_skipn i stk) in Hn.
  rewrite nth_error_app1 in Hn; [eapply nth_error_In; eauto|]. rewrite firstn_length.
  assert (j < length (firstn i stk ++ skipn i stk))%nat by (apply nth_error_Some; congruence).
  rewrite firstn_skipn in H0. lia.
Qed.

Lemma below_some : forall A (l : list A) i j x, nth_error l i = Some x -> (j < i)%nat -> exists y, nth_error l j = Some y.
Proof.
  intros A l i j x H Hj. destruct (nth_error l j) eqn:E; [eauto|]. apply nth_error_None in E.
  assert (i < length l)%nat by (apply nth_error_Some; congruence). lia.
Qed.

Lemma set_type_find : forall h x n, find_field (set_type x h) n = find_field h n.
Proof. reflexivity. Qed.

Lemma put_text_type : forall n txt k h x h', put_text n txt k h = Ret h' -> put_text n txt k (set_type x h) = Ret (set_type x h').
Proof.
  intros n txt k h x h' H. unfold put_text in *. destruct (parse_bytes txt k) as [o|]; [|discriminate]. cbn [bind] in *.
  unfold fset in *. change (fget (set_type x h) n) with (fget h n). destruct (fget h n); [|discriminate]. cbn [bind] in *.
  apply ret_inj in H. subst. reflexivity.
Qed.

Lemma icmp_fills : forall a stk i t h, at_pos a stk i t h -> h_fill t = FL_icmp -> fills a t h stk i (icmp_fill_defaults stk i).
Proof.
  intros a stk i t h A Hf. destruct A as [Hn Ht I Hl Hs _]. unfold icmp_fill_defaults. rewrite (hget_ok _ _ _ Hn). cbn [bind].
  eapply okp_bind; [apply len_from_soft, good_skipn; auto|]. intros k [Hk _].
  destruct (req_get t h "chksum" 16 Ht I) as [f [Ff [Gf [Wf Vf]]]]; [rewrite Hf; left; auto|]. rewrite Gf. cbn [bind].
  destruct (f_val f); [apply fills_same; auto|].
  assert (HS : good a h) by (eapply inv_good; eauto).
  eapply okp_bind with (P := fun hp => (fst hp = h \/ fst hp = set_type 58 h) /\ forall ph, snd hp = Some ph -> good a ph).
  { destruct i as [|j]; [cbn; split; auto; discriminate|].
    destruct (below_some _ _ _ j _ Hn) as [ll Hll]; [lia|]. rewrite (hget_ok _ _ _ Hll). cbn [bind].
    destruct (String.eqb_spec (h_name ll) "ipv6") as [E|E]; [|cbn; split; auto; discriminate].
    destruct (ip_addresses ll 128) as [s [d [H1 [H2 [H3 H4]]]]]; [eapply parsed_below; eauto; lia|auto|].
    destruct (parse_bytes_safe8 (fmt_d 58) 1) as [op Hop]; [lia|]. destruct (parse_bytes_safe8 (fmt_d k) 4) as [on Hon]; [lia|].
    rewrite (make_pseudo6 ll s d 58 k op on) by auto. cbn. split; auto. intros ph Hph. apply some_inj in Hph. subst ph.
    apply pseudo6_good; [apply addr_opt; auto|apply addr_opt; auto|apply (parse_opt _ 1 _ ltac:(lia) Hop)|apply (parse_opt _ 4 _ ltac:(lia) Hon)]. }
  intros [h1 ph] [Hh Hp]. cbn [fst snd] in *.
  assert (HS1 : good a h1) by (destruct Hh; subst; auto).
  eapply okp_bind; [apply serialize_soft; auto; apply good_skipn, upd_Forall; auto|]. intros b _.
  destruct (put_text_ok t h "chksum" f (fmt_d (inet_chksum 0 b)) 2 Ht I Ff Vf) as [o [Ho [Hpt Ip]]]; [lia|lia|lia|].
  destruct Hh; subst h1.
  - rewrite Hpt. cbn [bind]. eexists. split; [reflexivity|]. apply filled_inv; auto.
  - rewrite (put_text_type _ _ _ _ 58 _ Hpt). cbn [bind]. eexists. split; [reflexivity|]. apply filled_inv58; auto.
Qed.

Lemma udp_tcp_fills : forall a stk i t h, at_pos a stk i t h -> h_fill t = FL_udp_tcp -> fills a t h stk i (udp_tcp_fill_defaults stk i).
Proof.
  intros a stk i t h A Hf. destruct A as [Hn Ht I Hl Hs _]. unfold udp_tcp_fill_defaults. rewrite (hget_ok _ _ _ Hn). cbn [bind].
  eapply okp_bind; [apply len_from_soft, good_skipn; auto|]. intros k [Hk _].
  eapply okp_bind with (P := fun h => inv t h).
  { destruct (find_field h "len") as [fl|] eqn:El; [|exact I]. destruct (f_val fl); [exact I|].
    assert (Hfl : has_field t "len" 16 = true).
    { pose proof (fill_checked t Ht) as H. unfold fill_chk in H. rewrite !andb_true_iff in H. destruct H as [[[[[[[[_ _] _] H] _] _] _] _] _].
      destruct (find_field t "len") eqn:E; [|rewrite (inv_find_none _ _ _ I E) in El; discriminate]. rewrite Hf in H. auto. }
    destruct (has_field_get _ _ _ _ I Hfl) as [f [Ff [Gf [Wf Vf]]]].
    destruct (put_text_ok t h "len" f (fmt_d k) 2 Ht I Ff Vf) as [o [Ho [Hpt Ip]]]; [lia|lia|lia|]. rewrite Hpt. exact Ip. }
  intros h1 I1.
  destruct (req_get t h1 "chksum" 16 Ht I1) as [f [Ff [Gf [Wf Vf]]]]; [rewrite Hf; left; auto|]. rewrite Gf. cbn [bind].
  assert (Hend : fills a t h stk i (Ret (upd stk i h1))) by (exists h1; split; auto; apply filled_inv; auto).
  destruct (f_val f); [exact Hend|]. destruct i as [|j]; [exact Hend|].
  destruct (below_some _ _ _ j _ Hn) as [ll Hll]; [lia|]. rewrite (hget_ok _ _ _ Hll). cbn [bind].
  destruct (parse_bytes_safe8 (fmt_d (h_type h1)) 1) as [op Hop]; [lia|].
  assert (HS1 : good a h1) by (eapply inv_good; eauto).
  assert (Hgo : forall ph, good a ph -> fills a t h stk (S j)
     (b <- serialize_from (Some ph) (upd stk (S j) h1) (S j);; h2 <- put_text "chksum" (fmt_d (inet_chksum 0 b)) 2 h1;; Ret (upd stk (S j) h2))).
  { intros ph Hph. eapply okp_bind; [apply serialize_soft|].
    - apply good_skipn, upd_Forall; auto.
    - intros ph' E. apply some_inj in E. subst. auto.
    - intros b _. destruct (put_text_ok t h1 "chksum" f (fmt_d (inet_chksum 0 b)) 2 Ht I1 Ff Vf) as [o [Ho [Hpt Ip]]]; [lia|lia|lia|].
      rewrite Hpt. cbn [bind]. eexists. split; [reflexivity|]. apply filled_inv; auto. }
  destruct (String.eqb_spec (h_name ll) "ipv4") as [E|E].
  - destruct (ip_addresses ll 32) as [s [d [H1 [H2 [H3 H4]]]]]; [eapply parsed_below; eauto; lia|auto|].
    destruct (parse_bytes_safe8 (fmt_d k) 2) as [on Hon]; [lia|].
    rewrite (make_pseudo4 ll s d (h_type h1) k op on) by auto. cbn [bind]. apply Hgo, pseudo4_good; [apply addr_opt; auto|apply addr_opt; auto|apply (parse_opt _ 1 _ ltac:(lia) Hop)|apply (parse_opt _ 2 _ ltac:(lia) Hon)].
  - destruct (String.eqb_spec (h_name ll) "ipv6") as [E'|E']; [|exact Hend].
    destruct (ip_addresses ll 128) as [s [d [H1 [H2 [H3 H4]]]]]; [eapply parsed_below; eauto; lia|auto|].
    destruct (parse_bytes_safe8 (fmt_d k) 4) as [on Hon]; [lia|].
    rewrite (make_pseudo6 ll s d (h_type h1) k op on) by auto. cbn [bind]. apply Hgo, pseudo6_good; [apply addr_opt; auto|apply addr_opt; auto|apply (parse_opt _ 1 _ ltac:(lia) Hop)|apply (parse_opt _ 4 _ ltac:(lia) Hon)].
Qed.

Lemma ptp_fills : forall n sub a stk i t h, at_pos a stk i t h ->
  (forall f, find_field t n = Some f -> has_field t n 16 = true) -> fills a t h stk i (ptp_fill n sub stk i).
Proof.
  intros n sub a stk i t h A Hf. destruct A as [Hn Ht I Hl Hs _]. unfold ptp_fill. rewrite (hget_ok _ _ _ Hn). cbn [bind].
  destruct (find_field h n) as [fl|] eqn:El; [|apply fills_same; auto]. destruct (f_val fl); [apply fills_same; auto|].
  eapply okp_bind; [apply len_from_soft, good_skipn; auto|]. intros k [Hk _].
  destruct (find_field t n) as [ft|] eqn:E; [|rewrite (inv_find_none _ _ _ I E) in El; discriminate].
  destruct (has_field_get _ _ _ _ I (Hf _ eq_refl)) as [f [Ff [Gf [Wf Vf]]]].
  destruct (put_text_ok t h n f (fmt_d (k - sub)) 2 Ht I Ff Vf) as [o [Ho [Hpt Ip]]]; [lia|lia|lia|]. rewrite Hpt. cbn [bind].
  eexists. split; [reflexivity|]. apply filled_inv; auto.
Qed.

Lemma coap_fills : forall a stk i t h, at_pos a stk i t h -> h_fill t = FL_coap -> fills a t h stk i (coap_fill_defaults stk i).
Proof.
  intros a stk i t h A Hf. destruct A as [Hn Ht I Hl Hs _]. unfold coap_fill_defaults. rewrite (hget_ok _ _ _ Hn). cbn [bind].
  destruct (req_get t h "tkl" 4 Ht I) as [f [Ff [Gf [Wf Vf]]]]; [rewrite Hf; left; auto|]. rewrite Gf. cbn [bind].
  pose proof (fill_checked t Ht) as H. unfold fill_chk in H. rewrite !andb_true_iff in H. destruct H as [[[_ H] _] _].
  rewrite Hf in H. apply andb_true_iff in H. destruct H as [H1 H2].
  destruct (find_field t "token") as [ft|] eqn:E; [|discriminate]. destruct (inv_find _ _ _ _ I E) as [tok [Htok _]].
  unfold fget at 1. rewrite Htok. cbn [bind].
  destruct (f_val f); [apply fills_same; auto|]. destruct (f_val tok); [|apply fills_same; auto].
  destruct (nth_error (h_fields h) 5) as [f5|] eqn:E5.
  2:{ exfalso. apply nth_error_None in E5. pose proof (f_equal (@length _) (i_sig _ _ I)) as HL. rewrite !map_length in HL.
      rewrite HL in E5. unfold zlen in H2. lia. }
  destruct (put_text_ok t h "tkl" f (fmt_d (BIT_TO_BYTE (f_width f5))) 1 Ht I Ff Vf) as [o [Ho [Hpt Ip]]]; [lia|lia|lia|]. rewrite Hpt. cbn [bind].
  eexists. split; [reflexivity|]. apply filled_inv; auto.
Qed.

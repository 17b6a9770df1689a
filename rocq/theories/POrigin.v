(** When serialising does not end in bytes (C36): only an mld header without a usable
    ipv6 header, or a frame beyond the modelled size. *)

From Verif Require Import PTextIp PTextNum Frame PSer SpecParse PParse PMatch SpecFrame PFrame PInv PStep PArgs PSoft PFill PGroup PAll PSafe PAssign SpecOrigin.

Definition clean {A} (x : out A) : Prop := forall c, x = Crash c -> c <> Exit_call /\ c <> Out_of_model.

Lemma clean_ret : forall A (r : A), clean (Ret r).
Proof. intros A r c H. discriminate. Qed.
Lemma clean_bind : forall A B (x : out A) (f : A -> out B), clean x -> (forall r, x = Ret r -> clean (f r)) -> clean (bind x f).
Proof. intros A B [r|c] f Hx Hf d H; cbn in H; [eapply Hf; eauto|]. apply Hx. congruence. Qed.
Lemma clean_crash : forall A c, c <> Exit_call -> c <> Out_of_model -> clean (@Crash A c).
Proof. intros A c H1 H2 d H. assert (c = d) by congruence. subst. auto. Qed.

Ltac cstep :=
  match goal with
  | |- clean (Ret _) => apply clean_ret
  | |- clean (Crash _) => apply clean_crash; discriminate
  | |- clean (bind _ _) => apply clean_bind; [|let r := fresh "r" in let E := fresh "E" in intros r E]
  end.

Lemma clean_bget : forall b i, clean (bget b i).
Proof. intros b i. unfold bget. destruct (_ && _); cstep. Qed.
Lemma clean_bput : forall b i x, clean (bput b i x).
Proof. intros b i x. unfold bput. destruct (_ && _); cstep. Qed.
Lemma clean_bit_get : forall b i, clean (bit_get b i).
Proof. intros. unfold bit_get. destruct (_ <? _); repeat cstep. apply clean_bget. Qed.
Lemma clean_bit_set : forall b i x, clean (bit_set b i x).
Proof. intros. unfold bit_set. destruct (_ <? _); repeat cstep; [apply clean_bget|apply clean_bput]. Qed.
Lemma clean_write_bits : forall n pos b base v first, clean (write_bits n pos b base v first).
Proof. induction n as [|n IH]; intros; cbn [write_bits]; repeat cstep; [apply clean_bit_get|apply clean_bit_set|apply IH]. Qed.
Lemma clean_write_field : forall b o f v, clean (hdr_write_field b o f v).
Proof. intros. unfold hdr_write_field. destruct (_ <? _); [cstep|apply clean_write_bits]. Qed.
Lemma clean_copy_fields : forall fs o b m, clean (copy_fields fs o b m).
Proof.
  induction fs as [|f fs IH]; intros; cbn [copy_fields]; [cstep|]. destruct (_ <? _); [cstep|]. cstep; [|apply IH].
  destruct (field_source m f); [apply clean_write_field|cstep].
Qed.
Lemma clean_copy_hdr : forall h o b, clean (hdr_copy_to_buf h o b).
Proof. intros. unfold hdr_copy_to_buf, hdr_copy_to_buf_. apply clean_copy_fields. Qed.
Lemma clean_copy_stack : forall hs o b m, clean (copy_stack hs o b m).
Proof. induction hs as [|h r IH]; intros; cbn [copy_stack]; [cstep|]. cstep; [apply clean_copy_fields|apply IH]. Qed.

Lemma clean_hget : forall s i, clean (hget s i).
Proof. intros. unfold hget. destruct (nth_error s i); cstep. Qed.
Lemma clean_fget : forall h n, clean (fget h n).
Proof. intros. unfold fget. destruct (find_field h n); cstep. Qed.
Lemma clean_parse_bytes : forall s k, 0 <= k -> clean (parse_bytes s k).
Proof. intros s k Hk c H. destruct (parse_bytes_crash s k c Hk H) as [_ [-> _]]. split; discriminate. Qed.
Lemma clean_fset : forall n g h, clean (fset n g h).
Proof. intros. unfold fset. cstep; [apply clean_fget|cstep]. Qed.
Lemma clean_put_text : forall n txt k h, 0 <= k -> clean (put_text n txt k h).
Proof. intros. unfold put_text. cstep; [apply clean_parse_bytes; auto|apply clean_fset]. Qed.
Lemma clean_len_from : forall stk i, stack_size (skipn i stk) <= size_limit -> clean (len_from stk i).
Proof. intros stk i H. unfold len_from. destruct (Z.ltb_spec size_limit (stack_size (skipn i stk))); [lia|cstep]. Qed.
Lemma clean_serialize : forall ps stk i, stack_size (skipn i stk) <= size_limit -> clean (serialize_from ps stk i).
Proof.
  intros ps stk i H. unfold serialize_from. cstep; [apply clean_len_from; auto|]. destruct ps; [cstep; [apply clean_copy_hdr|]|]; apply clean_copy_stack.
Qed.
Lemma clean_any_set : forall ns d h, clean (any_set d h ns).
Proof. induction ns as [|n r IH]; intros; cbn [any_set]; [cstep|]. cstep; [apply clean_fget|]. destruct (_ || _); [cstep|apply IH]. Qed.
Lemma clean_zero_widths : forall ns h, clean (zero_widths ns h).
Proof. induction ns as [|n r IH]; intros; cbn [zero_widths]; [cstep|]. cstep; [apply clean_fset|apply IH]. Qed.
Lemma clean_group_layout : forall k ns h, clean (group_layout k ns h).
Proof.
  intros. unfold group_layout. cstep; [apply clean_any_set|]. cstep; [destruct r; [cstep|apply clean_zero_widths]|].
  cstep; [apply clean_any_set|]. destruct r1; [|apply clean_zero_widths]. cstep; [apply clean_zero_widths|]. cstep; apply clean_fset.
Qed.
Lemma clean_pseudo4 : forall ll p n, clean (make_pseudo HDR_IPV4_PSEUDO ll p n).
Proof.
  intros. unfold make_pseudo. cstep; [apply clean_fget|].
  change (fset "sip" (set_val (f_val r)) HDR_IPV4_PSEUDO) with (Ret (pseudo4 (f_val r) None None None)). cbn [bind]. cstep; [apply clean_fget|].
  change (fset "dip" (set_val (f_val r0)) (pseudo4 (f_val r) None None None)) with (Ret (pseudo4 (f_val r) (f_val r0) None None)). cbn [bind].
  unfold put_text at 1. cstep; [cstep; [apply clean_parse_bytes; lia|apply clean_fset]|]. binv E1.
  change (fset "proto" (set_val a) (pseudo4 (f_val r) (f_val r0) None None)) with (Ret (pseudo4 (f_val r) (f_val r0) a None)) in E1. apply ret_inj in E1. subst r1.
  change (fget (pseudo4 (f_val r) (f_val r0) a None) "len") with (Ret (MkField "len" false 16 80 None None FP_default)). cbn [bind f_width].
  apply clean_put_text. lia.
Qed.
Lemma clean_pseudo6 : forall ll p n, clean (make_pseudo HDR_IPV6_PSEUDO ll p n).
Proof.
  intros. unfold make_pseudo. cstep; [apply clean_fget|].
  change (fset "sip" (set_val (f_val r)) HDR_IPV6_PSEUDO) with (Ret (pseudo6 (f_val r) None None None)). cbn [bind]. cstep; [apply clean_fget|].
  change (fset "dip" (set_val (f_val r0)) (pseudo6 (f_val r) None None None)) with (Ret (pseudo6 (f_val r) (f_val r0) None None)). cbn [bind].
  unfold put_text at 1. cstep; [cstep; [apply clean_parse_bytes; lia|apply clean_fset]|]. binv E1.
  change (fset "proto" (set_val a) (pseudo6 (f_val r) (f_val r0) None None)) with (Ret (pseudo6 (f_val r) (f_val r0) a None)) in E1. apply ret_inj in E1. subst r1.
  change (fget (pseudo6 (f_val r) (f_val r0) a None) "len") with (Ret (MkField "len" false 32 256 None None FP_default)). cbn [bind f_width].
  apply clean_put_text. lia.
Qed.

(** *** Sizes *)
Lemma fset_size : forall n g h h', fset n g h = Ret h' -> h_size h' = h_size h.
Proof. intros n g h h' H. unfold fset in H. binv H. apply ret_inj in H. subst. reflexivity. Qed.
Lemma put_text_size : forall n txt k h h', put_text n txt k h = Ret h' -> h_size h' = h_size h.
Proof. intros n txt k h h' H. unfold put_text in H. binv H. eapply fset_size; eauto. Qed.
Lemma fill_proto_size : forall n stk i h h', fill_proto n stk i h = Ret h' -> h_size h' = h_size h.
Proof. intros n stk i h h' H. unfold fill_proto in H. binv H. destruct (f_val a); [congruence|]. eapply put_text_size; eauto. Qed.

Lemma roomy_upd : forall stk i h h', nth_error stk i = Some h -> h_size h' <= h_size h -> stack_size (skipn i stk) <= size_limit ->
  stack_size (skipn i (upd stk i h')) <= size_limit.
Proof.
  intros stk i h h' Hn Hs HR. rewrite (skipn_cons_nth _ _ _ _ Hn) in HR.
  rewrite (skipn_cons_nth _ (upd stk i h') i h').
  2:{ rewrite nth_error_upd, Nat.eqb_refl. replace (i <? length stk)%nat with true; auto. symmetry. apply Nat.ltb_lt. apply nth_error_Some. congruence. }
  rewrite skipn_upd_lt by lia. rewrite stack_size_cons in *. lia.
Qed.

Lemma roomy_next : forall a stk i t h, at_pos a stk i t h -> stack_size (skipn i stk) <= size_limit -> stack_size (skipn (S i) stk) <= size_limit.
Proof.
  intros a stk i t h A HR. rewrite (skipn_cons_nth _ _ _ _ (a_nth _ _ _ _ _ A)), stack_size_cons in HR.
  pose proof (proj1 (inv_soff _ _ (a_in _ _ _ _ _ A) (a_inv _ _ _ _ _ A))). lia.
Qed.

Lemma same_upd : forall stk i (h h1 h2 : hdr), nth_error stk i = Some h -> upd stk i h1 = upd stk i h2 -> h1 = h2.
Proof.
  intros stk i h h1 h2 Hn H. apply (f_equal (fun l => nth_error l i)) in H. rewrite !nth_error_upd, Nat.eqb_refl in H.
  replace (i <? length stk)%nat with true in H by (symmetry; apply Nat.ltb_lt, nth_error_Some; congruence). congruence.
Qed.
Lemma same_upd0 : forall stk i (h h2 : hdr), nth_error stk i = Some h -> stk = upd stk i h2 -> h = h2.
Proof. intros stk i h h2 Hn H. apply (same_upd stk i h h h2 Hn). rewrite upd_same by auto. auto. Qed.

(** mld needs the addresses of the first ipv6 header below it. *)
Definition mld_stuck (stk : list hdr) (i : nat) (h : hdr) : Prop :=
  h_name h = "mld"%string /\ given h "chksum" = false /\
  forall ip, find_ipv6 stk i = Some ip -> given ip "sip" && given ip "dip" = false.

Lemma ipv6_length : forall stk i ip n f x, Forall parsed (firstn i stk) -> find_ipv6 stk i = Some ip -> (n = "sip" \/ n = "dip")%string ->
  find_field ip n = Some f -> f_val f = Some x -> zlen x = 16.
Proof.
  intros stk i ip n f x HP Hf Hn Hff Hx. apply find_some in Hf. destruct Hf as [Hin Hnm]. apply String.eqb_eq in Hnm.
  rewrite Forall_forall in HP. destruct (ip_addresses ip 128 (HP _ Hin) (or_intror (conj Hnm eq_refl))) as [s [d [H1 [H2 [H3 H4]]]]].
  unfold fget in H1, H2. destruct (find_field ip "sip") as [s0|] eqn:E1; [|discriminate]. destruct (find_field ip "dip") as [d0|] eqn:E2; [|discriminate].
  apply ret_inj in H1. apply ret_inj in H2. subst s0 d0.
  assert (A : addr_ok 128 f) by (destruct Hn; subst n; [rewrite E1 in Hff|rewrite E2 in Hff]; apply some_inj in Hff; subst; auto).
  destruct A as [A1 A2]. destruct (A2 x) as [_ [_ [_ [A3 _]]]]; [unfold field_data; rewrite Hx; auto|].
  assert (f_width f = 8 * zlen x); [|lia]. apply A3. right. rewrite A1. split; [reflexivity|discriminate].
Qed.

Lemma mld_origin : forall a stk i t h c, at_pos a stk i t h -> h_fill t = FL_mld -> stack_size (skipn i stk) <= size_limit ->
  mld_fill_defaults stk i = Crash c -> c = Out_of_model \/ c = Exit_call -> c = Exit_call /\ mld_stuck stk i h.
Proof.
  intros a stk i t h c A Hf HR HC Hc. destruct A as [Hn Ht I Hl Hs Hrg]. pose proof (tmpl_mld t Ht Hf) as ->.
  unfold mld_fill_defaults in HC. destruct (mld_shape h I) as [s [v E]]. rewrite (hget_ok _ _ _ Hn) in HC. cbn [bind] in HC.
  assert (G1 : fget h "chksum" = Ret (MkField "chksum" (s 2%nat) 16 16 None (v 2%nat) FP_default)) by (rewrite E; reflexivity).
  assert (G2 : group_layout 20 ["ga"; "max_resp"; "rsv"] h = Ret (mld_laid (existsb (given (mld_hdr s v)) query_fields) (existsb (given (mld_hdr s v)) report_fields) s v))
    by (rewrite E; apply mld_group).
  rewrite G1 in HC. cbn [bind] in HC. rewrite G2 in HC. cbn [bind f_val] in HC.
  set (h1 := mld_laid _ _ _ _) in *.
  assert (HS : h_size h1 <= h_size h) by (rewrite E; subst h1; destruct (existsb _ query_fields), (existsb _ report_fields); cbn; lia).
  assert (HU : stack_size (skipn i (upd stk i h1)) <= size_limit) by (eapply roomy_upd; eauto).
  clearbody h1. assert (Hg : given h "chksum" = is_some (v 2%nat)) by (rewrite E; reflexivity).
  destruct (v 2%nat) eqn:Ev; [discriminate|]. unfold mld_stuck.
  assert (Hcl : forall A (x : out A), clean x -> x = Crash c -> False) by (intros A x Hx Hxc; destruct (Hx _ Hxc); destruct Hc; contradiction).
  destruct (find_ipv6 stk i) as [ip|] eqn:Ei.
  2:{ assert (c = Exit_call) by congruence. subst c. split; auto. split; [rewrite E; reflexivity|]. split; [rewrite Hg; reflexivity|]. discriminate. }
  assert (K : given ip "sip" && given ip "dip" = false -> c = Exit_call -> c = Exit_call /\ h_name h = "mld"%string /\ given h "chksum" = false /\ (forall ip0, Some ip = Some ip0 -> given ip0 "sip" && given ip0 "dip" = false)).
  { intros K1 K2. split; auto. split; [rewrite E; reflexivity|]. split; [rewrite Hg; reflexivity|]. intros ip0 X. apply some_inj in X. subst. auto. }
  unfold given in K at 1 2.
  destruct (find_field ip "sip") as [sf|] eqn:E1; [|apply K; [reflexivity|congruence]]. destruct (find_field ip "dip") as [df|] eqn:E2; [|apply K; [cbn; rewrite ?andb_false_r; reflexivity|congruence]].
  destruct (f_val sf) as [sip|] eqn:V1; [|apply K; [reflexivity|congruence]]. destruct (f_val df) as [dip|] eqn:V2; [|apply K; [cbn; rewrite ?andb_false_r; reflexivity|congruence]].
  rewrite (ipv6_length stk i ip "sip" sf sip Hl Ei (or_introl eq_refl) E1 V1), (ipv6_length stk i ip "dip" df dip Hl Ei (or_intror eq_refl) E2 V2) in HC.
  cbn [Z.eqb Pos.eqb andb] in HC. exfalso. eapply Hcl; [|exact HC].
  cstep; [apply clean_len_from; auto|]. cstep; [apply clean_serialize; auto|]. cstep; [apply clean_put_text; lia|]. cstep.
Qed.

Ltac dval := match goal with |- clean (match f_val ?x with _ => _ end) => destruct (f_val x) end.
Lemma fill_clean : forall a stk i t h, at_pos a stk i t h -> h_fill t <> FL_mld -> stack_size (skipn i stk) <= size_limit ->
  clean (run_fill (h_fill h) stk i).
Proof.
  intros a stk i t h A Hm HR. pose proof (roomy_next _ _ _ _ _ A HR) as HR1. rewrite (i_fill _ _ (a_inv _ _ _ _ _ A)).
  pose proof (a_nth _ _ _ _ _ A) as Hn.
  assert (Hget : forall h0, hget stk i = Ret h0 -> h0 = h) by (intros h0 H; rewrite (hget_ok _ _ _ Hn) in H; congruence).
  destruct (h_fill t) eqn:Ef; cbn [run_fill]; try congruence.
  - unfold ether_type_fill_defaults. cstep; [apply clean_hget|]. cstep; [apply clean_fget|]. destruct (f_val r0); [cstep|]. destruct (nth_error stk (S i)); [|cstep].
    cstep; [apply clean_put_text; lia|cstep].
  - unfold ipv4_fill_defaults. cstep; [apply clean_hget|]. cstep; [unfold fill_proto; cstep; [apply clean_fget|]; dval; [cstep|apply clean_put_text; lia]|].
    cstep; [apply clean_fget|]. cstep; [dval; [cstep|]; cstep; [apply clean_len_from; auto|apply clean_put_text; lia]|].
    cstep; [apply clean_fget|]. cstep; [dval; [cstep|]; cstep; [apply clean_copy_hdr|apply clean_put_text; lia]|]. cstep.
  - unfold ipv6_fill_defaults. cstep; [apply clean_hget|]. cstep; [unfold fill_proto; cstep; [apply clean_fget|]; dval; [cstep|apply clean_put_text; lia]|].
    cstep; [apply clean_fget|]. cstep; [dval; [cstep|]; cstep; [apply clean_len_from; auto|apply clean_put_text; lia]|]. cstep.
  - unfold icmp_fill_defaults. cstep; [apply clean_hget|]. apply Hget in E. subst r. cstep; [apply clean_len_from; auto|]. cstep; [apply clean_fget|].
    dval; [cstep|]. cstep.
    + destruct i; [cstep|]. cstep; [apply clean_hget|]. destruct (String.eqb _ _); [|cstep]. cstep; [apply clean_pseudo6|cstep].
    + destruct r1 as [h1 ps].
      assert (Hz : h_size h1 <= h_size h).
      { destruct i; [apply ret_inj, pair_inj in E1; destruct E1; subst; lia|]. binv E1. destruct (String.eqb _ _).
        - binv E1. apply ret_inj, pair_inj in E1. destruct E1. subst. cbn [set_type h_size]. lia.
        - apply ret_inj, pair_inj in E1. destruct E1; subst; lia. }
      cstep; [apply clean_serialize; eapply roomy_upd; eauto|]. cstep; [apply clean_put_text; lia|cstep].
  - unfold igmp_fill_defaults. destruct A as [_ Ht I Hl Hs Hrg]. pose proof (tmpl_igmp t Ht Ef) as ->. destruct (igmp_shape h I) as [s [v Eh]].
    assert (G2 : group_layout 4 ["ga"] h = Ret (igmp_laid (existsb (given (igmp_hdr s v)) query_fields) (existsb (given (igmp_hdr s v)) report_fields) s v))
      by (rewrite Eh; apply igmp_group).
    cstep; [apply clean_hget|]. apply Hget in E. subst r. cstep; [apply clean_fget|]. rewrite G2. cbn [bind]. set (h1 := igmp_laid _ _ _ _).
    assert (HS : h_size h1 <= h_size h) by (rewrite Eh; subst h1; destruct (existsb _ query_fields), (existsb _ report_fields); cbn; lia). clearbody h1.
    dval; [cstep|]. cstep; [apply clean_serialize; eapply roomy_upd; eauto|]. cstep; [apply clean_put_text; lia|cstep].
  - unfold udp_tcp_fill_defaults. cstep; [apply clean_hget|]. apply Hget in E. subst r. cstep; [apply clean_len_from; auto|].
    cstep; [destruct (find_field h "len"); [|cstep]; dval; [cstep|apply clean_put_text; lia]|].
    assert (Hz : h_size r0 <= h_size h).
    { destruct (find_field h "len") as [fl|]; [|apply ret_inj in E0; subst; lia]. destruct (f_val fl); [apply ret_inj in E0; subst; lia|]. apply put_text_size in E0. lia. }
    cstep; [apply clean_fget|]. dval; [cstep|]. destruct i; [cstep|]. cstep; [apply clean_hget|]. cbv zeta.
    assert (K : forall ph, clean (b <- serialize_from (Some ph) (upd stk (S i) r0) (S i);; h0 <- put_text "chksum" (fmt_d (inet_chksum 0 b)) 2 r0;; Ret (upd stk (S i) h0))).
    { intros ph. cstep; [apply clean_serialize; eapply roomy_upd; eauto|]. cstep; [apply clean_put_text; lia|cstep]. }
    destruct (String.eqb (h_name r2) "ipv4"); [cstep; [apply clean_pseudo4|apply K]|].
    destruct (String.eqb (h_name r2) "ipv6"); [cstep; [apply clean_pseudo6|apply K]|cstep].
  - unfold ptp_fill. cstep; [apply clean_hget|]. destruct (find_field _ _); [|cstep]. dval; [cstep|]. cstep; [apply clean_len_from; auto|]. cstep; [apply clean_put_text; lia|cstep].
  - unfold ptp_fill. cstep; [apply clean_hget|]. destruct (find_field _ _); [|cstep]. dval; [cstep|]. cstep; [apply clean_len_from; auto|]. cstep; [apply clean_put_text; lia|cstep].
  - unfold coap_fill_defaults. cstep; [apply clean_hget|]. cstep; [apply clean_fget|]. cstep; [apply clean_fget|]. destruct (f_val r0); [cstep|]. destruct (f_val r1); [|cstep].
    destruct (nth_error _ 5); [|cstep]. cstep; [apply clean_put_text; lia|cstep].
  - unfold options_fill_defaults. cstep; [apply clean_hget|]. cstep; [apply clean_fget|]. cstep; [apply clean_fget|]. destruct (f_val r0); [|cstep]. destruct (f_val r1); [|cstep].
    cstep; [apply clean_bget|]. cstep; [apply clean_bget|]. destruct (opt_split _). destruct (opt_split _). cstep; [apply clean_fset|cstep].
  - unfold sv_fill_defaults. cstep; [apply clean_hget|]. cstep; [apply clean_any_set|]. destruct r0; [cstep|]. cstep; [apply clean_zero_widths|cstep].
Qed.

(** *** A filler adds at most four bytes to its header. *)
Definition head_grows (stk : list hdr) (i : nat) (h : hdr) (stk' : list hdr) : Prop :=
  exists h', stk' = upd stk i h' /\ h_size h' <= h_size h + 4.

Lemma grows_same : forall stk i h, nth_error stk i = Some h -> head_grows stk i h stk.
Proof. intros stk i h H. exists h. split; [rewrite upd_same; auto|lia]. Qed.
Lemma grows_upd : forall stk i h h', h_size h' <= h_size h -> head_grows stk i h (upd stk i h').
Proof. intros stk i h h' H. exists h'. split; [auto|lia]. Qed.

Ltac vh H := match type of H with match f_val ?x with _ => _ end = _ => let Q := fresh "Q" in destruct (f_val x) eqn:Q end.
Ltac bs H := repeat match type of H with bind _ _ = _ => binv H end.
Ltac gfin := match goal with H : Ret _ = Ret ?s |- head_grows _ _ _ ?s => apply ret_inj in H; subst s end;
  first [apply grows_same; assumption | apply grows_upd].
Ltac hgot := match goal with Hn : nth_error ?s ?i = Some ?h, H : hget ?s ?i = Ret ?r |- _ => rewrite (hget_ok _ _ _ Hn) in H; apply ret_inj in H; subst r end.
Ltac psz := repeat match goal with
  | K : put_text _ _ _ _ = Ret _ |- _ => apply put_text_size in K
  | K : fill_proto _ _ _ _ = Ret _ |- _ => apply fill_proto_size in K
  | K : match f_val ?x with _ => _ end = Ret ?y |- _ => destruct (f_val x); [apply ret_inj in K; subst y|bs K]
  end.

Lemma fill_size : forall a stk i t h stk', at_pos a stk i t h -> run_fill (h_fill h) stk i = Ret stk' -> head_grows stk i h stk'.
Proof.
  intros a stk i t h stk' A H. rewrite (i_fill _ _ (a_inv _ _ _ _ _ A)) in H. pose proof (a_nth _ _ _ _ _ A) as Hn.
  destruct (h_fill t) eqn:Ef; cbn [run_fill] in H.
  - gfin.
  - unfold ether_type_fill_defaults in H. bs H. hgot. vh H; [gfin|]. destruct (nth_error stk (S i)); [|gfin]. bs H.
    psz; gfin; lia.
  - unfold ipv4_fill_defaults in H. bs H. hgot. psz; gfin; lia.
  - unfold ipv6_fill_defaults in H. bs H. hgot. psz; gfin; lia.
  - unfold icmp_fill_defaults in H. bs H. hgot. vh H; [gfin|]. bs H. destruct a0 as [h1 ps]. bs H.
    assert (Hz : h_size h1 = h_size h).
    { clear - E. destruct i; [apply ret_inj, pair_inj in E; destruct E; subst; auto|]. binv E. destruct (String.eqb _ _).
      - binv E. apply ret_inj, pair_inj in E. destruct E. subst. reflexivity.
      - apply ret_inj, pair_inj in E. destruct E; subst; auto. }
    psz; gfin; lia.
  - unfold igmp_fill_defaults in H. destruct A as [_ Ht I Hl Hs Hrg]. pose proof (tmpl_igmp t Ht Ef) as ->. destruct (igmp_shape h I) as [s [v Eh]].
    assert (G2 : group_layout 4 ["ga"] h = Ret (igmp_laid (existsb (given (igmp_hdr s v)) query_fields) (existsb (given (igmp_hdr s v)) report_fields) s v))
      by (rewrite Eh; apply igmp_group).
    rewrite (hget_ok _ _ _ Hn) in H. cbn [bind] in H. rewrite G2 in H. set (h1 := igmp_laid _ _ _ _) in *.
    assert (HS : h_size h1 <= h_size h) by (rewrite Eh; subst h1; destruct (existsb _ query_fields), (existsb _ report_fields); cbn; lia). clearbody h1.
    bs H. apply ret_inj in E0. subst. vh H; [gfin; auto|]. bs H.
    psz; gfin; lia.
  - unfold mld_fill_defaults in H. destruct A as [_ Ht I Hl Hs Hrg]. pose proof (tmpl_mld t Ht Ef) as ->. destruct (mld_shape h I) as [s [v Eh]].
    assert (G2 : group_layout 20 ["ga"; "max_resp"; "rsv"] h = Ret (mld_laid (existsb (given (mld_hdr s v)) query_fields) (existsb (given (mld_hdr s v)) report_fields) s v))
      by (rewrite Eh; apply mld_group).
    rewrite (hget_ok _ _ _ Hn) in H. cbn [bind] in H. rewrite G2 in H. set (h1 := mld_laid _ _ _ _) in *.
    assert (HS : h_size h1 <= h_size h) by (rewrite Eh; subst h1; destruct (existsb _ query_fields), (existsb _ report_fields); cbn; lia). clearbody h1.
    bs H. apply ret_inj in E0. subst. vh H; [gfin; auto|].
    destruct (find_ipv6 stk i); [|discriminate]. destruct (find_field _ "sip"); [|discriminate]. destruct (find_field _ "dip"); [|discriminate].
    vh H; [|discriminate]. vh H; [|discriminate]. destruct (_ && _); [|discriminate]. bs H.
    psz; gfin; lia.
  - unfold udp_tcp_fill_defaults in H. bs H. hgot.
    assert (Hz : h_size a2 = h_size h).
    { destruct (find_field h "len") as [fl|]; [|apply ret_inj in E1; subst; lia]. destruct (f_val fl); [apply ret_inj in E1; subst; lia|]. apply put_text_size in E1. lia. }
    vh H; [gfin; lia|]. destruct i; [gfin; lia|]. bs H. cbv zeta in H.
    destruct (String.eqb _ "ipv4"); [|destruct (String.eqb _ "ipv6"); [|gfin; lia]]; bs H;
      psz; gfin; lia.
  - unfold ptp_fill in H. bs H. hgot. destruct (find_field _ _); [|gfin]. vh H; [gfin|]. bs H.
    psz; gfin; lia.
  - unfold ptp_fill in H. bs H. hgot. destruct (find_field _ _); [|gfin]. vh H; [gfin|]. bs H.
    psz; gfin; lia.
  - unfold coap_fill_defaults in H. bs H. hgot. vh H; [gfin|]. vh H; [|gfin]. destruct (nth_error _ 5); [|discriminate]. bs H.
    psz; gfin; lia.
  - destruct A as [_ Ht I Hl Hs Hrg]. pose proof (tmpl_coap_opt t Ht Ef) as ->.
    destruct (opt_shape h I) as [s0 [s1 [w1 [size [v0 [v1 [Eh [W1 [W2 W3]]]]]]]]].
    destruct v0 as [num|]; [destruct v1 as [v|]|].
    2,3: unfold options_fill_defaults in H; rewrite (hget_ok _ _ _ Hn) in H; cbn [bind] in H; rewrite Eh in H; cbn in H; gfin.
    pose proof (i_val _ _ I) as F. rewrite Eh in F. unfold opt_hdr in F. cbn [h_fields] in F.
    pose proof (Forall_inv F num eq_refl) as [N1 [N2 N3]]. cbn [f_width] in N1.
    rewrite Eh in Hn. rewrite (opt_default _ _ _ _ _ _ _ _ Hn) in H by lia. apply ret_inj in H. subst stk'.
    destruct (opt_bytes_ok num v) as [O1 O2]. eexists. split; [reflexivity|]. rewrite Eh. cbn [opt_filled opt_hdr h_size]. lia.
  - destruct A as [_ Ht I Hl Hs Hrg]. pose proof (tmpl_sv t Ht Ef) as ->. destruct (sv_shape h I) as [s [v Eh]].
    rewrite Eh in Hn. rewrite (sv_default _ _ _ _ Hn) in H. rewrite <- Eh in *. apply ret_inj in H. subst stk'.
    destruct (existsb _ _); [apply grows_same; auto|]. apply grows_upd. rewrite Eh. cbn. lia.
Qed.

(** *** Filling the whole stack *)
Definition bulk (stk : list hdr) : Z := fold_right (fun h n => h_size h + 4 + n) 0 stk.

Lemma bulk_app : forall a b, bulk (a ++ b) = bulk a + bulk b.
Proof. induction a as [|x a IH]; intros b; unfold bulk in *; cbn [app fold_right]; [lia|rewrite IH; lia]. Qed.
Lemma bulk_parsed : forall l, Forall parsed l -> 0 <= bulk l.
Proof.
  intros l H. induction H as [|h l [t [Ht I]] _ IH]; unfold bulk in *; cbn [fold_right]; [lia|].
  pose proof (proj1 (inv_soff _ _ Ht I)). lia.
Qed.

Lemma at_pos_snoc : forall a n stk h t, nth_error stk n = Some h -> In t hdr_tmpls -> inv t h -> Forall parsed (firstn (S n) stk) ->
  Forall (good a) (skipn (S n) stk) -> (a = false -> Forall (fun h => regular h = true) (firstn (S n) stk)) -> at_pos a stk n t h.
Proof.
  intros a n stk h t Eh Ht I HP HG HR. constructor; auto.
  - rewrite (firstn_S_snoc _ _ _ _ Eh) in HP. apply Forall_app in HP. apply HP.
  - rewrite <- (firstn_skipn (S n) stk). apply Forall_app. split; auto.
    eapply Forall_impl; [|exact HP]. intros x [tx [Hx Ix]]. eapply inv_good; eauto.
  - intros Ea. specialize (HR Ea). rewrite (firstn_S_snoc _ _ _ _ Eh) in HR. apply Forall_app in HR. destruct HR as [_ H2]. apply Forall_inv in H2. auto.
Qed.

Lemma fill_origin : forall n stk c, (n <= length stk)%nat -> Forall parsed (firstn n stk) ->
  Forall (good false) (skipn n stk) -> Forall (fun h => regular h = true) (firstn n stk) ->
  bulk (firstn n stk) + stack_size (skipn n stk) <= size_limit ->
  fill_all n stk = Crash c -> c = Out_of_model \/ c = Exit_call -> c = Exit_call /\ exists k h, (k < n)%nat /\ nth_error stk k = Some h /\ mld_stuck stk k h.
Proof.
  induction n as [|n IH]; intros stk c Hn HP HG HR HB HC Hc; cbn [fill_all] in HC; [discriminate|].
  destruct (nth_error stk n) as [h|] eqn:Eh; [|apply nth_error_None in Eh; lia].
  rewrite (hget_ok _ _ _ Eh) in HC. cbn [bind] in HC.
  assert (HPn : Forall parsed (firstn n stk) /\ parsed h).
  { rewrite (firstn_S_snoc _ _ _ _ Eh) in HP. apply Forall_app in HP. destruct HP as [H1 H2]. split; auto. apply Forall_inv in H2. auto. }
  destruct HPn as [HP1 [t [Ht I]]].
  assert (HA : at_pos false stk n t h) by (apply at_pos_snoc; auto).
  pose proof (bulk_parsed _ HP1) as HB1.
  rewrite (firstn_S_snoc _ _ _ _ Eh), bulk_app in HB. unfold bulk at 2 in HB. cbn [fold_right] in HB.
  assert (HZ : stack_size (skipn n stk) <= size_limit) by (rewrite (skipn_cons_nth _ _ _ _ Eh), stack_size_cons; lia).
  destruct (run_fill (h_fill h) stk n) as [stk1|d] eqn:E1; cbn [bind] in HC.
  2:{ assert (d = c) by congruence. subst d. assert (Ed : h_fill t = FL_mld \/ h_fill t <> FL_mld) by (destruct (h_fill t); auto; right; discriminate). destruct Ed as [Em|Em].
      - rewrite (i_fill _ _ I), Em in E1. cbn [run_fill] in E1. destruct (mld_origin _ _ _ _ _ _ HA Em HZ E1 Hc). split; auto. exists n, h. repeat split; auto; apply H0.
      - exfalso. destruct (fill_clean _ _ _ _ _ HA Em HZ c E1). destruct Hc; contradiction. }
  destruct (fill_size _ _ _ _ _ _ HA E1) as [h' [-> Hs]].
  pose proof (run_fills false stk n t h HA) as HF. unfold fills in HF. rewrite E1 in HF. cbn [okp] in HF. destruct HF as [h2 [Eu Hfil]].
  assert (h' = h2) by (eapply same_upd; eauto). subst h2.
  assert (Hnu : nth_error (upd stk n h') n = Some h').
  { rewrite nth_error_upd, Nat.eqb_refl. replace (n <? length stk)%nat with true by (symmetry; apply Nat.ltb_lt; lia). auto. }
  edestruct (IH (upd stk n h') c) as [-> [k [hk [K0 [K1 K2]]]]]; auto.
  - rewrite upd_length. lia.
  - rewrite firstn_upd_ge by lia. auto.
  - rewrite (skipn_cons_nth _ _ _ _ Hnu). constructor; [|rewrite skipn_upd_lt by lia; auto].
    split; [apply Hfil|]. intros Ea. apply Hfil. apply (a_reg _ _ _ _ _ HA Ea).
  - rewrite firstn_upd_ge by lia. rewrite (firstn_S_snoc _ _ _ _ Eh) in HR. apply Forall_app in HR. apply HR.
  - rewrite firstn_upd_ge by lia. rewrite (skipn_cons_nth _ _ _ _ Hnu), stack_size_cons, skipn_upd_lt by lia. lia.
  - split; auto. exists k, hk. rewrite nth_error_upd in K1. destruct (Nat.eqb_spec k n); [lia|]. split; [lia|]. split; [auto|].
    unfold mld_stuck, find_ipv6 in *. rewrite firstn_upd_ge in K2 by lia. auto.
Qed.

Lemma fill_all_size : forall n stk stk', (n <= length stk)%nat -> Forall parsed (firstn n stk) ->
  Forall (good false) (skipn n stk) -> Forall (fun h => regular h = true) (firstn n stk) ->
  fill_all n stk = Ret stk' -> stack_size stk' <= bulk (firstn n stk) + stack_size (skipn n stk).
Proof.
  induction n as [|n IH]; intros stk stk' Hn HP HG HR HC; cbn [fill_all] in HC.
  { apply ret_inj in HC. subst stk'. cbn [skipn firstn]. unfold bulk. cbn [fold_right]. lia. }
  destruct (nth_error stk n) as [h|] eqn:Eh; [|apply nth_error_None in Eh; lia].
  rewrite (hget_ok _ _ _ Eh) in HC. cbn [bind] in HC.
  assert (HPn : Forall parsed (firstn n stk) /\ parsed h).
  { rewrite (firstn_S_snoc _ _ _ _ Eh) in HP. apply Forall_app in HP. destruct HP as [H1 H2]. split; auto. apply Forall_inv in H2. auto. }
  destruct HPn as [HP1 [t [Ht I]]].
  assert (HA : at_pos false stk n t h) by (apply at_pos_snoc; auto).
  rewrite (firstn_S_snoc _ _ _ _ Eh), bulk_app. unfold bulk at 2. cbn [fold_right].
  destruct (run_fill (h_fill h) stk n) as [stk1|d] eqn:E1; cbn [bind] in HC; [|discriminate].
  destruct (fill_size _ _ _ _ _ _ HA E1) as [h' [-> Hs]].
  pose proof (run_fills false stk n t h HA) as HF. unfold fills in HF. rewrite E1 in HF. cbn [okp] in HF. destruct HF as [h2 [Eu Hfil]].
  assert (h' = h2) by (eapply same_upd; eauto). subst h2.
  assert (Hnu : nth_error (upd stk n h') n = Some h').
  { rewrite nth_error_upd, Nat.eqb_refl. replace (n <? length stk)%nat with true by (symmetry; apply Nat.ltb_lt; lia). auto. }
  pose proof (IH (upd stk n h') stk') as J. rewrite upd_length, firstn_upd_ge in J by lia.
  rewrite (skipn_cons_nth _ _ _ _ Hnu), stack_size_cons, skipn_upd_lt in J by lia.
  rewrite (firstn_S_snoc _ _ _ _ Eh) in HR. apply Forall_app in HR.
  enough (stack_size stk' <= bulk (firstn n stk) + (h_size h' + stack_size (skipn (S n) stk))) by lia.
  apply J; [lia|auto| |apply HR|auto].
  constructor; [|auto]. split; [apply Hfil|]. intros Ea. apply Hfil. apply (a_reg _ _ _ _ _ HA Ea).
Qed.

Lemma find_first : forall A (p : A -> bool) l x, find p l = Some x -> exists j, nth_error l j = Some x /\ p x = true /\
  forall i y, (i < j)%nat -> nth_error l i = Some y -> p y = false.
Proof.
  induction l as [|a l IH]; intros x H; cbn in H; [discriminate|]. destruct (p a) eqn:E.
  - apply some_inj in H. subst. exists O. split; [auto|split; [auto|]]. intros i y Hi. lia.
  - destruct (IH x H) as [j [H1 [H2 H3]]]. exists (S j). split; [auto|split; [auto|]]. intros [|i] y Hi Hy; cbn in Hy; [congruence|].
    apply (H3 i); auto. lia.
Qed.

Lemma first_find : forall A (p : A -> bool) l j x, nth_error l j = Some x -> p x = true ->
  (forall i y, (i < j)%nat -> nth_error l i = Some y -> p y = false) -> find p l = Some x.
Proof.
  induction l as [|a l IH]; intros j x H1 H2 H3; [destruct j; discriminate|]. cbn [find]. destruct j as [|j]; cbn in H1.
  - apply some_inj in H1. subst. rewrite H2. auto.
  - rewrite (H3 O a) by (auto; lia). apply (IH j); auto. intros i y Hi Hy. apply (H3 (S i)); auto. lia.
Qed.

Lemma stuck_lacks : forall stk k, (exists h, nth_error stk k = Some h /\ mld_stuck stk k h) <-> lacks_addresses stk k.
Proof.
  intros stk k. split; intros [h [H1 [H2 [H3 H4]]]]; exists h.
  - split; [auto|split; [auto|split; [auto|]]]. intros j ip Hj Hn Hname Hfst. apply andb_false_iff, H4.
    unfold find_ipv6. apply (first_find _ _ _ j); [rewrite nth_firstn by lia; auto|rewrite Hname; auto|].
    intros i y Hi Hy. rewrite nth_firstn in Hy by lia. apply String.eqb_neq. eauto.
  - split; [auto|]. split; [auto|split; [auto|]]. intros ip Hf. apply andb_false_iff. unfold find_ipv6 in Hf.
    apply find_first in Hf. destruct Hf as [j [K1 [K2 K3]]]. apply String.eqb_eq in K2.
    assert (Hj : (j < k)%nat).
    { assert (j < length (firstn k stk))%nat by (apply nth_error_Some; congruence). rewrite firstn_length in H. lia. }
    rewrite nth_firstn in K1 by lia. apply (H4 j); auto. intros i g Hi Hg. apply String.eqb_neq. apply (K3 i); auto. rewrite nth_firstn by lia. auto.
Qed.

Lemma mld_named : forall t, In t hdr_tmpls -> h_name t = "mld"%string -> h_fill t = FL_mld.
Proof.
  assert (forallb (fun t => negb (String.eqb (h_name t) "mld") || match h_fill t with FL_mld => true | _ => false end) hdr_tmpls = true) by (vm_compute; reflexivity).
  rewrite forallb_forall in H. intros t Ht Hn. specialize (H t Ht). rewrite Hn in H. cbn [String.eqb negb orb] in H. destruct (h_fill t); discriminate || auto.
Qed.

Lemma stuck_no_fill : forall stk stk' k h, filled_at stk stk' k -> nth_error stk k = Some h -> mld_stuck stk k h -> False.
Proof.
  intros stk stk' k h [t [h0 [h' [Ht [I [Hn [_ [_ HF]]]]]]]] Hn2 [S1 [S2 S3]]. assert (h0 = h) by congruence. subst h0. cbv zeta in HF.
  set (mid := firstn (S k) stk ++ skipn (S k) stk') in *.
  assert (Hk : (k < length stk)%nat) by (apply nth_error_Some; congruence).
  assert (Hm : nth_error mid k = Some h).
  { unfold mid. rewrite nth_error_app1 by (rewrite firstn_length; lia). rewrite nth_firstn by lia. auto. }
  assert (Hfm : find_ipv6 mid k = find_ipv6 stk k).
  { unfold find_ipv6, mid. rewrite firstn_app, firstn_firstn, Nat.min_l by lia. rewrite firstn_length.
    replace (k - Nat.min (S k) (length stk))%nat with O by lia. cbn [firstn]. rewrite app_nil_r. auto. }
  rewrite (i_fill _ _ I), (mld_named t Ht) in HF by (rewrite <- (i_name _ _ I); auto). cbn [run_fill] in HF.
  unfold mld_fill_defaults in HF. rewrite (hget_ok _ _ _ Hm) in HF. cbn [bind] in HF. binv HF. binv HF. rewrite Hfm in HF.
  unfold given in S2, S3. unfold fget in E. destruct (find_field h "chksum") as [cf|]; [|discriminate]. apply ret_inj in E. subst a.
  destruct (f_val cf); [discriminate|]. destruct (find_ipv6 stk k) as [ip|]; [|discriminate]. specialize (S3 _ eq_refl).
  destruct (find_field ip "sip") as [sf|]; [|discriminate]. destruct (find_field ip "dip") as [df|]; [|discriminate].
  destruct (f_val sf); [|discriminate]. destruct (f_val df); [|discriminate]. discriminate.
Qed.

Lemma serialise_exact : forall ws n f, argc_frame ws = Ret (Some (n, f)) ->
  Forall (fun h => regular h = true) (fr_stack f) -> modest (fr_stack f) ->
  ((exists k, lacks_addresses (fr_stack f) k) /\ frame_to_buf f = Crash Exit_call) \/
  ((forall k, ~ lacks_addresses (fr_stack f) k) /\ exists f' b, frame_to_buf f = Ret (f', b)).
Proof.
  intros ws n f H HR HM. pose proof (accepted_parsed _ _ _ H) as HP.
  assert (HC : forall c, frame_to_buf f = Crash c -> c = Exit_call /\ exists k, lacks_addresses (fr_stack f) k).
  { intros c Hc. pose proof (serialise_regular ws n f c H HR Hc) as Hcc.
    unfold frame_to_buf in Hc. pose proof (fill_origin (length (fr_stack f)) (fr_stack f)) as FO.
    pose proof (fill_all_size (length (fr_stack f)) (fr_stack f)) as FZ.
    rewrite firstn_all, skipn_all in FO, FZ. change (stack_size []) with 0 in FO, FZ.
    assert (HM' : bulk (fr_stack f) + 0 <= size_limit) by (rewrite size_limit_val; unfold modest, bulk in *; lia).
    destruct (fill_all (length (fr_stack f)) (fr_stack f)) as [stk'|d] eqn:E; cbn [bind] in Hc.
    - exfalso. specialize (FZ stk' (le_n _) HP ltac:(constructor) HR eq_refl).
      assert (HCl : clean (' n0 <- len_from stk' 0;; ' b <- copy_stack stk' 0 (balloc (Z.max n0 60)) false;; Ret (MkFrame stk' (fr_padding f) (fr_has_mask f), b))).
      { cstep; [apply clean_len_from; cbn [skipn]; lia|]. cstep; [apply clean_copy_stack|cstep]. }
      destruct (HCl c Hc). destruct Hcc; contradiction.
    - assert (d = c) by congruence. subst d.
      destruct (FO c (le_n _) HP ltac:(constructor) HR HM' eq_refl ltac:(tauto)) as [-> [k [h [_ [K1 K2]]]]]. split; auto. exists k. apply stuck_lacks. eauto. }
  destruct (frame_to_buf f) as [[f' b]|c] eqn:E.
  - right. split; [|eauto]. intros k Hk. apply stuck_lacks in Hk. destruct Hk as [h [K1 K2]].
    destruct (filled_fill_all f f' b E HP) as [_ HA]. eapply stuck_no_fill; [apply (HA k)|eauto|eauto]. apply nth_error_Some. congruence.
  - left. destruct (HC c eq_refl) as [-> HK]. auto.
Qed.

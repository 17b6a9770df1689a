(** What the fillers do to a header, and what of it is emitted. *)

From Verif Require Import PTextIp PTextNum Frame PSer SpecParse PParse PMatch SpecFrame PFrame PInv PStep PArgs PSoft PFill PGroup PAll PSafe PAssign PImage SpecSum PSum.

(** Set a value that was not given. *)
Definition put (n : string) (v : buf) (h : hdr) : hdr := fmod n (set_val (Some v)) h.
Definition setd (n : string) (v : buf) (h : hdr) : hdr := if given h n then h else put n v h.

Lemma find_mod_other : forall n m g fs, (forall x, f_name (g x) = f_name x) -> n <> m ->
  find (fun x => String.eqb m (f_name x)) (mod_first n g fs) = find (fun x => String.eqb m (f_name x)) fs.
Proof.
  intros n m g fs Hg Hne. induction fs as [|x r IH]; [reflexivity|]. cbn [find mod_first].
  destruct (String.eqb_spec n (f_name x)) as [E|E]; cbn [find].
  - rewrite Hg. destruct (String.eqb_spec m (f_name x)); [congruence|auto].
  - destruct (String.eqb m (f_name x)); auto.
Qed.

Lemma put_other : forall n m v h, n <> m -> find_field (put n v h) m = find_field h m.
Proof. intros n m v h Hne. unfold find_field, put, fmod. cbn. apply find_mod_other; auto. Qed.

Lemma setd_other : forall n m v h, n <> m -> find_field (setd n v h) m = find_field h m.
Proof. intros n m v h Hne. unfold setd. destruct (given h n); auto. apply put_other; auto. Qed.

Lemma setd_given : forall n m v h, n <> m -> given (setd n v h) m = given h m.
Proof. intros n m v h Hne. unfold given. rewrite setd_other; auto. Qed.

Lemma setd_find : forall n v h f, find_field h n = Some f -> given h n = false -> find_field (setd n v h) n = Some (set_val (Some v) f).
Proof.
  intros n v h f Hf Hg. unfold setd. rewrite Hg. unfold put. apply find_field_fmod; auto.
Qed.

Lemma mod_first_none : forall n g fs, find (fun x => String.eqb n (f_name x)) fs = None -> mod_first n g fs = fs.
Proof.
  intros n g. induction fs as [|x r IH]; intros H; [reflexivity|]. cbn [find mod_first] in *. destruct (String.eqb n (f_name x)); [discriminate|].
  rewrite IH; auto.
Qed.

Lemma setd_missing : forall n v h, find_field h n = None -> setd n v h = h.
Proof.
  intros n v h H. unfold setd, given. rewrite H. unfold put, fmod. unfold find_field in H. rewrite mod_first_none by auto. destruct h; reflexivity.
Qed.

Lemma setd_size : forall n v h, h_size (setd n v h) = h_size h.
Proof. intros. unfold setd. destruct (given h n); reflexivity. Qed.
Lemma setd_type : forall n v h, h_type (setd n v h) = h_type h.
Proof. intros. unfold setd. destruct (given h n); reflexivity. Qed.
Lemma setd_name : forall n v h, h_name (setd n v h) = h_name h.
Proof. intros. unfold setd. destruct (given h n); reflexivity. Qed.

(** *** Values that are given stay *)
Definition fkeep (f f' : field) : Prop := f' = set_val (f_val f') f /\ (f_val f = None \/ f_val f' = f_val f).
Definition keeps_given (h h' : hdr) : Prop := h_size h' = h_size h /\ Forall2 fkeep (h_fields h) (h_fields h').

Lemma fkeep_refl : forall f, fkeep f f.
Proof. intros []. split; auto. Qed.

Lemma keeps_refl : forall h, keeps_given h h.
Proof. intros h. split; auto. induction (h_fields h); constructor; auto. apply fkeep_refl. Qed.

Lemma fkeep_trans : forall a b c, fkeep a b -> fkeep b c -> fkeep a c.
Proof.
  intros [] [] [] [H1 H2] [H3 H4]. unfold fkeep, set_val in *. cbn in *. split; [congruence|]. destruct H2; auto. destruct H4; [left; congruence|right; congruence].
Qed.

Lemma keeps_trans : forall a b c, keeps_given a b -> keeps_given b c -> keeps_given a c.
Proof.
  intros a b c [H1 H2] [H3 H4]. split; [congruence|]. revert H4. generalize (h_fields c). induction H2; intros l0 H4; inversion H4; subst; constructor; auto.
  eapply fkeep_trans; eauto.
Qed.

Lemma keeps_fmod : forall n o h f, find_field h n = Some f -> f_val f = None -> keeps_given h (fmod n (set_val o) h).
Proof.
  intros n o h f Hf Hv. split; auto. unfold find_field in Hf. cbn. revert Hf. induction (h_fields h) as [|x r IH]; intros Hf; [discriminate|].
  cbn [find mod_first] in *. destruct (String.eqb n (f_name x)).
  - apply some_inj in Hf. subst x. constructor; [split; [destruct f; reflexivity|auto]|]. clear. induction r; constructor; auto. apply fkeep_refl.
  - constructor; [apply fkeep_refl|auto].
Qed.

Lemma keeps_setd : forall n v h, keeps_given h (setd n v h).
Proof.
  intros n v h. unfold setd. destruct (given h n) eqn:E; [apply keeps_refl|]. unfold given in E. destruct (find_field h n) as [f|] eqn:Ef.
  - apply (keeps_fmod n (Some v) h f); auto. destruct (f_val f); [discriminate|auto].
  - pose proof (setd_missing n v h Ef) as H. unfold setd, given in H. rewrite Ef in H. rewrite H. apply keeps_refl.
Qed.

(** *** put_text *)
Lemma given_none : forall h n f, find_field h n = Some f -> f_val f = None -> given h n = false.
Proof. intros h n f H1 H2. unfold given. rewrite H1, H2. auto. Qed.
Lemma given_some : forall h n f v, find_field h n = Some f -> f_val f = Some v -> given h n = true.
Proof. intros h n f v H1 H2. unfold given. rewrite H1, H2. auto. Qed.

Lemma fget_inv : forall h n f, fget h n = Ret f -> find_field h n = Some f.
Proof. intros h n f H. unfold fget in H. destruct (find_field h n); [apply ret_inj in H; congruence|discriminate]. Qed.

Lemma put_text_eff : forall n txt k v h h', parse_bytes txt k = Ret (Some v) -> put_text n txt k h = Ret h' -> h' = put n v h.
Proof.
  intros n txt k v h h' Hp H. unfold put_text in H. rewrite Hp in H. cbn [bind] in H. unfold fset in H. binv H. apply ret_inj in H. auto.
Qed.

Lemma put_dec : forall n x k h h', 0 <= x < 2 ^ 64 -> 0 <= k <= 8 -> put_text n (fmt_d x) k h = Ret h' -> h' = put n (be_bytes (Z.to_nat k) x) h.
Proof. intros n x k h h' Hx Hk. apply put_text_eff. apply parse_print_d; auto. Qed.

Lemma put_hex : forall n x k h h', 0 <= x < 2 ^ 64 -> 0 <= k <= 8 -> put_text n (fmt_0x x) k h = Ret h' -> h' = put n (be_bytes (Z.to_nat k) x) h.
Proof. intros n x k h h' Hx Hk. apply put_text_eff. apply parse_print_0x; auto. Qed.

Lemma setd_put : forall n v h h', given h n = false -> h' = put n v h -> h' = setd n v h.
Proof. intros n v h h' Hg ->. unfold setd. rewrite Hg. auto. Qed.

Lemma setd_keep : forall n v h, given h n = true -> h = setd n v h.
Proof. intros n v h Hg. unfold setd. rewrite Hg. auto. Qed.

(** *** A header between those before it and those after it *)
Lemma hget_mid : forall A h B, hget (A ++ h :: B) (length A) = Ret h.
Proof. intros. unfold hget. rewrite nth_error_mid. auto. Qed.

Lemma nth_mid_next : forall (A : list hdr) h B, nth_error (A ++ h :: B) (S (length A)) = nth_error B 0.
Proof. intros. rewrite nth_error_app2 by lia. replace (S (length A) - length A)%nat with 1%nat by lia. reflexivity. Qed.

Lemma upd_mid : forall (A : list hdr) h h' B, upd (A ++ h :: B) (length A) h' = A ++ h' :: B.
Proof. induction A; intros; cbn [app upd length]; congruence. Qed.

Lemma skipn_mid : forall (A : list hdr) B, skipn (length A) (A ++ B) = B.
Proof. intros. rewrite skipn_app, skipn_all, Nat.sub_diag. reflexivity. Qed.

Lemma skipn_mid_S : forall (A : list hdr) h B, skipn (S (length A)) (A ++ h :: B) = B.
Proof. intros. rewrite skipn_app, skipn_all2 by lia. replace (S (length A) - length A)%nat with 1%nat by lia. reflexivity. Qed.

Lemma mid_inj : forall (A : list hdr) h h' B, A ++ h :: B = A ++ h' :: B -> h = h'.
Proof. intros A h h' B H. apply app_inv_head in H. congruence. Qed.

Ltac mid H := rewrite ?hget_mid, ?nth_mid_next, ?upd_mid, ?skipn_mid, ?skipn_mid_S in H.

(** *** The fillers *)
Definition next_type (B : list hdr) (d : Z) : Z := match B with nx :: _ => h_type nx | [] => d end.
Definition types_ok (B : list hdr) : Prop := Forall (fun h => 0 <= h_type h < 65536) B.

Lemma next_range : forall B d, types_ok B -> 0 <= d < 65536 -> 0 <= next_type B d < 2 ^ 64.
Proof.
  intros [|x B] d H Hd; cbn [next_type]; [lia|]. apply Forall_inv in H. cbv beta in H. lia.
Qed.

Lemma ether_eff : forall A h B h', types_ok B -> ether_type_fill_defaults (A ++ h :: B) (length A) = Ret (A ++ h' :: B) ->
  h' = match B with [] => h | _ :: _ => setd "et" (be_bytes 2 (next_type B 0)) h end.
Proof.
  intros A h B h' HT H. unfold ether_type_fill_defaults in H. mid H. cbn [bind] in H. binv H. rename E into Hf. apply fget_inv in Hf.
  destruct (f_val a) as [v|] eqn:Ev.
  - apply ret_inj in H. apply mid_inj in H. subst h'. destruct B; auto. apply setd_keep. eapply given_some; eauto.
  - destruct B as [|nx B]; cbn [nth_error] in H.
    + apply ret_inj in H. apply mid_inj in H. auto.
    + binv H. apply ret_inj in H. mid H. apply mid_inj in H. subst a0. apply setd_put; [eapply given_none; eauto|].
      eapply (put_dec "et" _ 2); eauto; [|lia]. apply (next_range (nx :: B) 0); auto. lia.
Qed.

Lemma proto_eff : forall A h B n h', types_ok B -> fill_proto n (A ++ h :: B) (length A) h = Ret h' ->
  h' = setd n (be_bytes 1 (next_type B 17)) h.
Proof.
  intros A h B n h' HT H. unfold fill_proto in H. binv H. apply fget_inv in E. destruct (f_val a) as [v|] eqn:Ev.
  - apply ret_inj in H. subst. apply setd_keep. eapply given_some; eauto.
  - mid H. apply setd_put; [eapply given_none; eauto|]. pose proof (next_range B 17 HT ltac:(lia)) as Hr. destruct B as [|nx B]; cbn [nth_error next_type] in *.
    + eapply put_text_eff; [|exact H]. reflexivity.
    + eapply (put_dec n _ 1); eauto. lia.
Qed.

Lemma inet_range : forall s b, 0 <= inet_chksum s b <= 65535.
Proof.
  intros s b. unfold inet_chksum. cbv zeta. rewrite land_lnot16. apply htons_range. lia.
Qed.

Lemma size_range : forall stk i n, Forall (wf_hdr false) (skipn i stk) -> len_from stk i = Ret n -> n = stack_size (skipn i stk) /\ 0 <= n < 2 ^ 64.
Proof.
  intros stk i n HW H. apply len_from_inv in H. destruct H as [-> H]. split; auto. pose proof (wf_size _ HW). pose proof size_limit_val.
  change (2 ^ 64) with 18446744073709551616. lia.
Qed.

Lemma wf_setd_ipv4 : forall t h n v f, In t hdr_tmpls -> inv t h -> find_field h n = Some f -> isv t f = false -> f_width f <= 8 * zlen v -> (f_width f mod 8 = 0 -> f_width f = 8 * zlen v) -> zlen v <= 8 -> bytes_ok v ->
  inv t (setd n v h).
Proof.
  intros t h n v f Ht I Hf Hv Hw Hx Hl Hb. unfold setd. destruct (given h n); auto. apply (inv_set_val t h n f); auto; [|discriminate].
  intros w Hw'. apply some_inj in Hw'. subst w. pose proof size_limit_val. split; [lia|]. split; [auto|]. split; [lia|]. split; [intros E; destruct (isv_not_var _ _ Hv E); auto|intros E; destruct (isv_not_tok _ _ Hv E)].
Qed.

Lemma setd_be : forall t h n w k x, In t hdr_tmpls -> inv t h -> In (n, w) (req (h_fill t)) -> w <= 8 * Z.of_nat k -> (w mod 8 = 0 -> w = 8 * Z.of_nat k) -> (k <= 8)%nat ->
  inv t (setd n (be_bytes k x) h).
Proof.
  intros t h n w k x Ht I Hin Hw Hx Hk. destruct (req_get t h n w Ht I Hin) as [f [Ff [Gf [Wf Vf]]]].
  assert (zlen (be_bytes k x) = Z.of_nat k) by (unfold zlen; rewrite be_bytes_length; auto).
  apply (wf_setd_ipv4 t h n _ f); auto; try lia. apply be_bytes_ok.
Qed.

Lemma copy20 : forall h b, wf_hdr false h -> h_size h = 20 -> hdr_copy_to_buf h 0 (balloc 20) = Ret b -> b = render [h].
Proof.
  intros h b Hw Hs H. assert (E : copy_stack [h] 0 (balloc 20) false = Ret b).
  { cbn [copy_stack]. unfold hdr_copy_to_buf in H. rewrite H. reflexivity. }
  apply copy_render in E; [|auto|rewrite stack_size_cons, Hs; cbn; lia].
  rewrite stack_size_cons, Hs in E. change (balloc (20 - (20 + stack_size []))) with (@nil Z) in E. rewrite app_nil_r in E. auto.
Qed.

Definition ipv4_len (h : hdr) (B : list hdr) : hdr :=
  setd "len" (be_bytes 2 (stack_size (h :: B))) (setd "proto" (be_bytes 1 (next_type B 17)) h).

Lemma ipv4_eff : forall A h B h' t, In t hdr_tmpls -> h_fill t = FL_ipv4 -> inv t h -> Forall (wf_hdr false) B -> types_ok B ->
  ipv4_fill_defaults (A ++ h :: B) (length A) = Ret (A ++ h' :: B) ->
  h' = setd "chksum" (be_bytes 2 (inet_chksum 0 (render [ipv4_len h B]))) (ipv4_len h B) /\ inv t (ipv4_len h B).
Proof.
  intros A h B h' t Ht Hft I HB HT H. unfold ipv4_fill_defaults in H. mid H. cbn [bind] in H. binv H. apply proto_eff in E; auto.
  assert (I1 : inv t a). { rewrite E. apply (setd_be t h "proto" 8 1); auto; try lia. rewrite Hft. left; auto. }
  binv H. apply fget_inv in E0. binv H. rename a1 into h2.
  assert (E2 : h2 = ipv4_len h B).
  { unfold ipv4_len. rewrite <- E. destruct (f_val a0) eqn:Ev.
    - apply ret_inj in E1. subst h2. apply setd_keep. eapply given_some; eauto.
    - binv E1. apply size_range in E2; [|mid E2; rewrite skipn_mid; constructor; [eapply inv_wf; eauto|auto]]. rewrite skipn_mid in E2. destruct E2 as [-> Hr].
      apply setd_put; [eapply given_none; eauto|]. eapply (put_dec "len" _ 2); eauto. lia. }
  assert (I2 : inv t h2). { rewrite E2. unfold ipv4_len. rewrite <- E. apply (setd_be t a "len" 16 2); auto; try lia. rewrite Hft. right; left; auto. }
  clear E1. binv H. apply fget_inv in E1. binv H. apply ret_inj in H. mid H. apply mid_inj in H. subst a2. rewrite <- E2. split; [|auto].
  destruct (f_val a1) eqn:Ev.
  - apply ret_inj in E3. subst h'. apply setd_keep. eapply given_some; eauto.
  - binv E3. apply copy20 in E4; [|eapply inv_wf; eauto|].
    2:{ pose proof (tmpl_ipv4 t Ht Hft) as ->. destruct (i_fix _ _ I2 ltac:(vm_compute; reflexivity)) as [_ ->]. reflexivity. }
    subst a2. apply setd_put; [eapply given_none; eauto|]. eapply (put_dec "chksum" _ 2); eauto; [|lia].
    pose proof (inet_range 0 (render [h2])). lia.
Qed.

Lemma ipv6_eff : forall A h B h' t, In t hdr_tmpls -> h_fill t = FL_ipv6 -> inv t h -> Forall (wf_hdr false) B -> types_ok B ->
  ipv6_fill_defaults (A ++ h :: B) (length A) = Ret (A ++ h' :: B) ->
  h' = setd "len" (be_bytes 2 (stack_size B)) (setd "next" (be_bytes 1 (next_type B 17)) h).
Proof.
  intros A h B h' t Ht Hft I HB HT H. unfold ipv6_fill_defaults in H. mid H. cbn [bind] in H. binv H. apply proto_eff in E; auto.
  binv H. apply fget_inv in E0. binv H. apply ret_inj in H. mid H. apply mid_inj in H. subst a1. rewrite <- E.
  destruct (f_val a0) eqn:Ev.
  - apply ret_inj in E1. subst h'. apply setd_keep. eapply given_some; eauto.
  - binv E1. apply size_range in E2; [|rewrite skipn_mid_S; auto]. rewrite skipn_mid_S in E2. destruct E2 as [-> Hr].
    apply setd_put; [eapply given_none; eauto|]. eapply (put_dec "len" _ 2); eauto. lia.
Qed.

Lemma ptp_eff : forall n sub A h B h', Forall (wf_hdr false) (h :: B) -> 0 <= sub <= h_size h ->
  ptp_fill n sub (A ++ h :: B) (length A) = Ret (A ++ h' :: B) ->
  h' = setd n (be_bytes 2 (stack_size (h :: B) - sub)) h.
Proof.
  intros n sub A h B h' HW Hs H. unfold ptp_fill in H. mid H. cbn [bind] in H. destruct (find_field h n) as [f|] eqn:Ef.
  - destruct (f_val f) eqn:Ev.
    + apply ret_inj in H. apply mid_inj in H. subst. apply setd_keep. eapply given_some; eauto.
    + binv H. binv H. apply ret_inj in H. mid H. apply mid_inj in H. subst a0. apply size_range in E; [|rewrite skipn_mid; auto]. rewrite skipn_mid in E. destruct E as [-> Hr].
      apply setd_put; [eapply given_none; eauto|]. eapply (put_dec n _ 2); eauto; [|lia]. rewrite stack_size_cons in *. apply Forall_inv_tail in HW. pose proof (wf_size _ HW). lia.
  - apply ret_inj in H. apply mid_inj in H. subst. rewrite setd_missing; auto.
Qed.

Definition udp_len (h : hdr) (B : list hdr) : hdr := setd "len" (be_bytes 2 (stack_size (h :: B))) h.

Definition pseudo_for (name : string) : option hdr :=
  if String.eqb name "ipv4" then Some HDR_IPV4_PSEUDO else if String.eqb name "ipv6" then Some HDR_IPV6_PSEUDO else None.

Lemma snoc_or_nil : forall (A : list hdr), A = [] \/ exists A' ll, A = A' ++ [ll].
Proof. intros A. destruct (rev A) as [|x r] eqn:E.
  - left. apply (f_equal (@rev _)) in E. rewrite rev_involutive in E. auto.
  - right. exists (rev r), x. apply (f_equal (@rev _)) in E. rewrite rev_involutive in E. cbn in E. auto.
Qed.

Lemma hget_last : forall A' ll h B, hget ((A' ++ [ll]) ++ h :: B) (length A') = Ret ll.
Proof. intros. unfold hget. rewrite <- app_assoc. cbn [app]. rewrite nth_error_mid. auto. Qed.

Lemma length_snoc : forall (A' : list hdr) ll, length (A' ++ [ll]) = S (length A').
Proof. intros. rewrite app_length. cbn. lia. Qed.

Lemma udp_eff : forall A h B h', Forall (wf_hdr false) (h :: B) ->
  udp_tcp_fill_defaults (A ++ h :: B) (length A) = Ret (A ++ h' :: B) ->
  (h' = udp_len h B /\ (given h "chksum" = true \/ forall A' ll, A = A' ++ [ll] -> pseudo_for (h_name ll) = None)) \/
  (given h "chksum" = false /\ exists A' ll t ph b, A = A' ++ [ll] /\ pseudo_for (h_name ll) = Some t /\
    make_pseudo t ll (h_type h) (stack_size (h :: B)) = Ret ph /\
    serialize_from (Some ph) (A ++ udp_len h B :: B) (length A) = Ret b /\
    h' = setd "chksum" (be_bytes 2 (inet_chksum 0 b)) (udp_len h B)).
Proof.
  intros A h B h' HW H. unfold udp_tcp_fill_defaults in H. mid H. cbn [bind] in H. binv H.
  apply size_range in E; [|rewrite skipn_mid; auto]. rewrite skipn_mid in E. destruct E as [-> Hr]. binv H. rename a into h1.
  assert (E1 : h1 = udp_len h B).
  { unfold udp_len. destruct (find_field h "len") as [f|] eqn:Ef.
    - destruct (f_val f) eqn:Ev.
      + apply ret_inj in E. subst h1. apply setd_keep. eapply given_some; eauto.
      + apply setd_put; [eapply given_none; eauto|]. eapply (put_dec "len" _ 2); eauto. lia.
    - apply ret_inj in E. subst h1. rewrite setd_missing; auto. }
  assert (Hg : given h1 "chksum" = given h "chksum") by (rewrite E1; apply setd_given; discriminate).
  assert (Ht : h_type h1 = h_type h) by (rewrite E1; apply setd_type). rewrite <- E1. clear E E1.
  binv H. apply fget_inv in E. destruct (f_val a) eqn:Ev.
  { apply ret_inj in H. mid H. apply mid_inj in H. subst h1. left. split; [auto|left]. rewrite <- Hg. eapply given_some; eauto. }
  assert (Hgf : given h1 "chksum" = false) by (eapply given_none; eauto).
  destruct (snoc_or_nil A) as [->|[A' [ll ->]]].
  { cbn [length] in H. apply ret_inj in H. apply (mid_inj []) in H. left. split; [auto|right]. intros A' ll Hx. destruct A'; discriminate. }
  rewrite (length_snoc A' ll) in H at 1. cbv iota in H. rewrite hget_last in H. cbn [bind] in H. cbv zeta in H.
  fold (pseudo_for (h_name ll)) in H. destruct (pseudo_for (h_name ll)) as [t|] eqn:Ep.
  - right. split; [congruence|]. binv H. binv H. binv H. apply ret_inj in H. mid H. apply mid_inj in H. subst a2.
    exists A', ll, t, a0, a1. split; [auto|]. split; [auto|]. split; [rewrite <- Ht; auto|]. mid E1. split; [auto|].
    apply setd_put; [auto|]. eapply (put_dec "chksum" _ 2); eauto; [|lia]. pose proof (inet_range 0 a1). lia.
  - left. apply ret_inj in H. mid H. apply mid_inj in H. split; [auto|right]. intros A2 l2 Hx. apply app_inj_tail in Hx. destruct Hx as [_ <-]. auto.
Qed.

Lemma icmp_eff : forall A h B h', Forall (wf_hdr false) (h :: B) ->
  icmp_fill_defaults (A ++ h :: B) (length A) = Ret (A ++ h' :: B) ->
  (h' = h /\ given h "chksum" = true) \/
  (given h "chksum" = false /\
   ((exists A' ll ph b, A = A' ++ [ll] /\ h_name ll = "ipv6"%string /\
      make_pseudo HDR_IPV6_PSEUDO ll 58 (stack_size (h :: B)) = Ret ph /\
      serialize_from (Some ph) (A ++ set_type 58 h :: B) (length A) = Ret b /\
      h' = set_type 58 (setd "chksum" (be_bytes 2 (inet_chksum 0 b)) h)) \/
    (exists b, (forall A' ll, A = A' ++ [ll] -> h_name ll <> "ipv6"%string) /\
      serialize_from None (A ++ h :: B) (length A) = Ret b /\
      h' = setd "chksum" (be_bytes 2 (inet_chksum 0 b)) h))).
Proof.
  intros A h B h' HW H. unfold icmp_fill_defaults in H. mid H. cbn [bind] in H. binv H.
  apply size_range in E; [|rewrite skipn_mid; auto]. rewrite skipn_mid in E. destruct E as [-> Hr].
  binv H. apply fget_inv in E. destruct (f_val a) eqn:Ev.
  { apply ret_inj in H. apply mid_inj in H. subst. left. split; [auto|]. eapply given_some; eauto. }
  assert (Hgf : given h "chksum" = false) by (eapply given_none; eauto). right. split; [auto|].
  assert (Hnone : forall P : Prop, (forall b, serialize_from None (A ++ h :: B) (length A) = Ret b ->
     h' = setd "chksum" (be_bytes 2 (inet_chksum 0 b)) h -> P) ->
     (b <- serialize_from None (upd (A ++ h :: B) (length A) h) (length A);;
      h0 <- put_text "chksum" (fmt_d (inet_chksum 0 b)) 2 h;; Ret (upd (A ++ h :: B) (length A) h0)) = Ret (A ++ h' :: B) -> P).
  { intros P HP H0. mid H0. binv H0. binv H0. apply ret_inj in H0. mid H0. apply mid_inj in H0. subst a1. apply (HP a0); auto.
    apply setd_put; [auto|]. eapply (put_dec "chksum" _ 2); eauto; [|lia]. pose proof (inet_range 0 a0). lia. }
  destruct (snoc_or_nil A) as [->|[A' [ll ->]]].
  { cbn [length] in *. cbv iota in H. cbn [bind] in H. right. eapply Hnone; [|exact H]. intros b H1 H2. exists b. split; [intros A' ll Hx; destruct A'; discriminate|auto]. }
  rewrite (length_snoc A' ll) in H at 1. cbv iota in H. rewrite hget_last in H. cbn [bind] in H.
  destruct (String.eqb_spec (h_name ll) "ipv6") as [En|En].
  - left. binv H. cbn [bind] in E0. binv E0. apply ret_inj in E0. subst a0. cbv iota beta in H. mid H. binv H. binv H. apply ret_inj in H. mid H. apply mid_inj in H. subst a2.
    exists A', ll, a1, a0. split; [auto|]. split; [auto|]. split; [auto|]. split; [auto|].
    apply put_dec in E2; [|pose proof (inet_range 0 a0); lia|lia]. rewrite E2. unfold setd. rewrite Hgf. reflexivity.
  - cbn [bind] in H. right. eapply Hnone; [|exact H]. intros b H1 H2. exists b. split; [|auto].
    intros A2 l2 Hx. apply app_inj_tail in Hx. destruct Hx as [_ <-]. auto.
Qed.

(** *** Filling keeps the type number, but for icmp *)
Lemma fset_type : forall n g h h', fset n g h = Ret h' -> h_type h' = h_type h.
Proof. intros n g h h' H. unfold fset in H. binv H. apply ret_inj in H. subst. reflexivity. Qed.

Lemma put_text_keeps : forall n txt k h h', put_text n txt k h = Ret h' -> h_type h' = h_type h.
Proof. intros n txt k h h' H. unfold put_text in H. binv H. eapply fset_type; eauto. Qed.

Lemma zero_widths_type : forall ns h h', zero_widths ns h = Ret h' -> h_type h' = h_type h.
Proof.
  induction ns as [|n ns IH]; intros h h' H; cbn [zero_widths] in H; [apply ret_inj in H; congruence|].
  binv H. apply fset_type in E. rewrite (IH _ _ H). auto.
Qed.

Lemma group_layout_type : forall k ns h h', group_layout k ns h = Ret h' -> h_type h' = h_type h.
Proof.
  intros k ns h h' H. unfold group_layout in H. binv H. binv H. binv H.
  assert (E2 : h_type a0 = h_type h).
  { destruct a; [apply ret_inj in E0; congruence|]. apply zero_widths_type in E0. rewrite E0. reflexivity. }
  rewrite <- E2. destruct a1.
  - binv H. binv H. apply zero_widths_type in E3. apply fset_type in E4. apply fset_type in H. rewrite H, E4, E3. reflexivity.
  - apply zero_widths_type in H. rewrite H. reflexivity.
Qed.

Lemma fill_type : forall t A h B h', Forall (wf_hdr false) (h :: B) -> types_ok B -> In t hdr_tmpls -> inv t h ->
  run_fill (h_fill t) (A ++ h :: B) (length A) = Ret (A ++ h' :: B) ->
  h_type h' = h_type h \/ (h_fill t = FL_icmp /\ h_type h' = 58 /\ given h "chksum" = false /\ exists A' ll, A = A' ++ [ll] /\ h_name ll = "ipv6"%string).
Proof.
  intros t A h B h' HW HT Ht I H. pose proof (Forall_inv_tail HW) as HB. destruct (h_fill t) eqn:Ef; cbn [run_fill] in H.
  - left. apply ret_inj in H. apply mid_inj in H. congruence.
  - left. apply ether_eff in H; auto. subst. destruct B; auto. apply setd_type.
  - left. eapply ipv4_eff in H; eauto. destruct H as [-> _]. rewrite setd_type. unfold ipv4_len. rewrite !setd_type. auto.
  - left. eapply ipv6_eff in H; eauto. subst. rewrite !setd_type. auto.
  - apply icmp_eff in H; auto. destruct H as [[-> _]|[Hg [[A' [ll [ph [b [E1 [E2 [_ [_ ->]]]]]]]]|[b [_ [_ ->]]]]]]; [auto| |left; apply setd_type].
    right. repeat (split; [auto|]). exists A', ll. auto.
  - left. unfold igmp_fill_defaults in H. mid H. cbn [bind] in H. binv H. binv H. apply group_layout_type in E0. destruct (f_val a).
    + apply ret_inj in H. mid H. apply mid_inj in H. congruence.
    + binv H. binv H. apply ret_inj in H. mid H. apply mid_inj in H. apply put_text_keeps in E2. congruence.
  - left. unfold mld_fill_defaults in H. mid H. cbn [bind] in H. binv H. binv H. apply group_layout_type in E0. destruct (f_val a).
    + apply ret_inj in H. mid H. apply mid_inj in H. congruence.
    + destruct (find_ipv6 (A ++ h :: B) (length A)) as [ip|]; [|discriminate]. destruct (find_field ip "sip"); [|discriminate]. destruct (find_field ip "dip"); [|discriminate].
      destruct (f_val f); [|discriminate]. destruct (f_val f0); [|discriminate]. destruct ((zlen b =? 16) && (zlen b0 =? 16)); [|discriminate].
      binv H. binv H. binv H. apply ret_inj in H. mid H. apply mid_inj in H. apply put_text_keeps in E3. congruence.
  - left. apply udp_eff in H; auto. destruct H as [[-> _]|[_ [A' [ll [tt [ph [b [_ [_ [_ [_ ->]]]]]]]]]]]; rewrite ?setd_type; unfold udp_len; rewrite ?setd_type; auto.
  - left. unfold ptp_fill in H. mid H. cbn [bind] in H. destruct (find_field h "hdr-messageLength"); [|apply ret_inj in H; apply mid_inj in H; congruence].
    destruct (f_val f); [apply ret_inj in H; apply mid_inj in H; congruence|]. binv H. binv H. apply ret_inj in H. mid H. apply mid_inj in H. apply put_text_keeps in E0. congruence.
  - left. unfold ptp_fill in H. mid H. cbn [bind] in H. destruct (find_field h "tlv-length"); [|apply ret_inj in H; apply mid_inj in H; congruence].
    destruct (f_val f); [apply ret_inj in H; apply mid_inj in H; congruence|]. binv H. binv H. apply ret_inj in H. mid H. apply mid_inj in H. apply put_text_keeps in E0. congruence.
  - left. unfold coap_fill_defaults in H. mid H. cbn [bind] in H. binv H. binv H. destruct (f_val a); [apply ret_inj in H; apply mid_inj in H; congruence|].
    destruct (f_val a0); [|apply ret_inj in H; apply mid_inj in H; congruence]. destruct (nth_error (h_fields h) 5); [|discriminate].
    binv H. apply ret_inj in H. mid H. apply mid_inj in H. apply put_text_keeps in E1. congruence.
  - left. unfold options_fill_defaults in H. mid H. cbn [bind] in H. binv H. binv H. destruct (f_val a) as [num|]; [|apply ret_inj in H; apply mid_inj in H; congruence].
    destruct (f_val a0) as [v|]; [|apply ret_inj in H; apply mid_inj in H; congruence]. binv H. binv H.
    destruct (opt_split (u16 (a1 * 256 + a2))) as [dn de]. destruct (opt_split (u16 (zlen v))) as [ln le]. binv H. apply ret_inj in H. mid H. apply mid_inj in H.
    apply fset_type in E3. rewrite <- H, <- E3. unfold resize_field. destruct (relayout _ _). reflexivity.
  - left. unfold sv_fill_defaults in H. mid H. cbn [bind] in H. binv H. destruct a; [apply ret_inj in H; apply mid_inj in H; congruence|].
    binv H. apply ret_inj in H. mid H. apply mid_inj in H. apply zero_widths_type in E0. subst. rewrite E0. reflexivity.
Qed.

(** *** Header [k] of an accepted frame when it is serialised *)
Lemma tmpl_type : forall t, In t hdr_tmpls -> 0 <= h_type t < 65536.
Proof. intros t Ht. pose proof (fill_checked t Ht) as H. unfold fill_chk in H. rewrite !andb_true_iff in H. lia. Qed.

Lemma mid_split : forall (stk stk' : list hdr) k h, nth_error stk k = Some h ->
  firstn (S k) stk ++ skipn (S k) stk' = firstn k stk ++ h :: skipn (S k) stk' /\ length (firstn k stk) = k.
Proof.
  intros stk stk' k h H. rewrite (firstn_S_snoc _ _ _ _ H), <- app_assoc. split; [reflexivity|]. rewrite firstn_length.
  assert (k < length stk)%nat by (apply nth_error_Some; congruence). lia.
Qed.

Lemma run_mid : forall K A h h' (B : list hdr) k, length A = k -> run_fill K (A ++ h :: B) k = Ret (upd (A ++ h :: B) k h') ->
  run_fill K (A ++ h :: B) (length A) = Ret (A ++ h' :: B).
Proof. intros K A h h' B k <- H. rewrite upd_mid in H. auto. Qed.

Record emitting (f f' : frame) (b : buf) (k : nat) (t h h' : hdr) : Prop := MkEm {
  e_tmpl : In t hdr_tmpls;
  e_inv : inv t h;
  e_filled : filled t h h';
  e_src : nth_error (fr_stack f) k = Some h;
  e_dst : nth_error (fr_stack f') k = Some h';
  e_wf : Forall (wf_hdr false) (fr_stack f');
  e_types : types_ok (skipn (S k) (fr_stack f'));
  e_parsed : Forall parsed (fr_stack f);
  e_len : length (fr_stack f') = length (fr_stack f);
  e_buf : frame_to_buf f = Ret (f', b);
  e_run : run_fill (h_fill t) (firstn k (fr_stack f) ++ h :: skipn (S k) (fr_stack f')) (length (firstn k (fr_stack f))) =
          Ret (firstn k (fr_stack f) ++ h' :: skipn (S k) (fr_stack f')) }.

Lemma in_skipn : forall A (x : A) n l, In x (skipn n l) -> In x l.
Proof. intros A x n l H. rewrite <- (firstn_skipn n l). apply in_or_app. auto. Qed.

Lemma emitting_all : forall f f' b k h, Forall parsed (fr_stack f) -> Forall (fun h => regular h = true) (fr_stack f) ->
  frame_to_buf f = Ret (f', b) -> nth_error (fr_stack f) k = Some h -> exists t h', emitting f f' b k t h h'.
Proof.
  intros f f' b k h HP HR H Hk.
  pose proof (frame_to_buf_ok false f HP ltac:(auto)) as HF. rewrite H in HF. cbn [okp fst] in HF. destruct HF as [HL [HA HG]]. apply good_wf in HG.
  assert (HT : forall d n, (length (fr_stack f) <= n + d)%nat -> types_ok (skipn n (fr_stack f'))).
  { induction d as [|d IH]; intros n Hn.
    - rewrite skipn_all2 by lia. constructor.
    - destruct (nth_error (fr_stack f) n) as [x|] eqn:En.
      2:{ apply nth_error_None in En. rewrite skipn_all2 by lia. constructor. }
      assert (Hnl : (n < length (fr_stack f))%nat) by (apply nth_error_Some; congruence).
      specialize (IH (S n)). destruct (HA n Hnl) as [t [x0 [x' [H1 [H2 [H3 [H4 [H5 H6]]]]]]]].
      assert (x0 = x) by congruence. subst x0. cbv zeta in H6. destruct (mid_split _ (fr_stack f') _ _ En) as [M1 M2]. rewrite M1 in H6.
      apply (run_mid _ _ _ _ _ _ M2) in H6. rewrite (skipn_cons_nth _ _ _ _ H4). constructor.
      + rewrite (i_fill _ _ H2) in H6. eapply fill_type in H6; eauto.
        * pose proof (tmpl_type t H1). rewrite (i_type _ _ H2) in H6. destruct H6 as [->|[_ [-> _]]]; lia.
        * constructor; [eapply inv_wf; eauto|]. rewrite Forall_forall in *. intros y Hy. apply HG. eapply in_skipn; eauto.
        * apply IH. lia.
      + apply IH. lia. }
  assert (Hkl : (k < length (fr_stack f))%nat) by (apply nth_error_Some; congruence).
  destruct (HA k Hkl) as [t [x0 [h' [H1 [H2 [H3 [H4 [H5 H6]]]]]]]]. assert (x0 = h) by congruence. subst x0.
  exists t, h'. cbv zeta in H6. destruct (mid_split _ (fr_stack f') _ _ Hk) as [M1 M2]. rewrite M1 in H6.
  apply (run_mid _ _ _ _ _ _ M2) in H6. rewrite (i_fill _ _ H2) in H6.
  constructor; auto. apply (HT (length (fr_stack f) - S k)%nat). lia.
Qed.

Lemma tmpl_by_name : forall t n t0, In t hdr_tmpls -> h_name t = n -> find_tmpl n = Some t0 -> t = t0.
Proof. intros t n t0 Ht Hn Hf. subst n. rewrite (find_tmpl_name t Ht) in Hf. congruence. Qed.

Lemma emitting_name : forall f f' b k t h h' n t0, emitting f f' b k t h h' -> h_name h = n -> find_tmpl n = Some t0 -> t = t0.
Proof. intros f f' b k t h h' n t0 E Hn Hf. apply (tmpl_by_name t n t0); auto; [apply E|]. rewrite <- Hn. symmetry. apply i_name. apply E. Qed.

Lemma emitting_tail : forall f f' b k t h h', emitting f f' b k t h h' ->
  Forall (wf_hdr false) (h :: skipn (S k) (fr_stack f')) /\ Forall (wf_hdr false) (skipn (S k) (fr_stack f')) /\ wf_hdr false h /\ wf_hdr false h'.
Proof.
  intros f f' b k t h h' E. pose proof (e_wf _ _ _ _ _ _ _ E) as W.
  assert (HB : Forall (wf_hdr false) (skipn (S k) (fr_stack f'))). { rewrite Forall_forall in *. intros y Hy. apply W. eapply in_skipn; eauto. }
  assert (Hh : wf_hdr false h) by (eapply inv_wf; apply E).
  split; [constructor; auto|]. split; [auto|split; [auto|]]. eapply Forall_nth_error; [exact W|apply E].
Qed.

(** *** Reading a field of the emitted frame *)
Lemma disjoint_no_overlap : forall f g, f_off g + f_width g <= f_off f \/ f_off f + f_width f <= f_off g -> ~ overlap f g.
Proof. intros f g H [H1 H2]. lia. Qed.

Lemma emitted_lone : forall f f' b k h' j fl, frame_to_buf f = Ret (f', b) -> Forall (wf_hdr false) (fr_stack f') ->
  nth_error (fr_stack f') k = Some h' -> lone h' j fl -> within h' fl ->
  number_at b (8 * start_of (fr_stack f') k + f_off fl) (Z.to_nat (f_width fl)) =
  match field_data fl with Some v => positional 256 v mod 2 ^ f_width fl | None => 0 end.
Proof.
  intros f f' b k h' j fl H W Hk [L1 L2] Hin. eapply emitted_field; eauto.
  - eapply Forall_impl; [|exact W]. intros x. apply wk_well_formed.
  - intros j' g Hne Hg _. apply disjoint_no_overlap. eauto.
Qed.

(** A named field of a template that shares no bits, at a known place *)
Fixpoint index_of (n : string) (fs : list field) : option nat :=
  match fs with
  | [] => None
  | x :: r => if String.eqb n (f_name x) then Some 0%nat else option_map S (index_of n r)
  end.

Definition apart (a b : Z * Z) : bool := (fst b + snd b <=? fst a) || (fst a + snd a <=? fst b).
Definition lone_chk (ls : list (Z * Z)) (j : nat) (off w : Z) : bool :=
  match nth_error ls j with Some (o, w') => (o =? off) && (w' =? w) | None => false end &&
  forallb (fun p => Nat.eqb (fst p) j || apart (off, w) (snd p)) (combine (seq 0 (length ls)) ls).

Definition at_place (t : hdr) (n : string) (off w : Z) : bool :=
  match index_of n (h_fields t) with Some j => lone_chk (map lay (h_fields t)) j off w | None => false end.

Lemma nth_combine_seq : forall A (l : list A) s i x, nth_error l i = Some x -> nth_error (combine (seq s (length l)) l) i = Some ((s + i)%nat, x).
Proof.
  induction l as [|y l IH]; intros s [|i] x H; cbn in *; try discriminate; [rewrite Nat.add_0_r; congruence|].
  rewrite (IH (S s) i x H). do 2 f_equal. lia.
Qed.

Lemma lone_chk_spec : forall h j off w, lone_chk (map lay (h_fields h)) j off w = true ->
  exists f, lone h j f /\ f_off f = off /\ f_width f = w.
Proof.
  intros h j off w H. unfold lone_chk in H. apply andb_true_iff in H. destruct H as [H1 H2].
  destruct (nth_error (map lay (h_fields h)) j) as [[o w']|] eqn:Ej; [|discriminate]. rewrite nth_error_map in Ej.
  destruct (nth_error (h_fields h) j) as [f|] eqn:Ef; [|discriminate]. cbn in Ej. unfold lay in Ej. apply some_inj in Ej. apply pair_inj in Ej. destruct Ej as [E1 E2].
  exists f. split; [|lia]. split; [auto|]. intros i g Hne Hg. rewrite forallb_forall in H2.
  assert (Hi : nth_error (map lay (h_fields h)) i = Some (lay g)) by (rewrite nth_error_map, Hg; auto).
  pose proof (nth_combine_seq _ _ 0 _ _ Hi) as Hc. apply nth_error_In in Hc. apply H2 in Hc. cbn [fst snd Nat.add] in Hc.
  destruct (Nat.eqb_spec i j); [lia|]. cbn [orb] in Hc. unfold apart, lay in Hc. cbn [fst snd] in Hc. lia.
Qed.

Lemma index_of_names : forall n fs fs', names fs = names fs' -> index_of n fs = index_of n fs'.
Proof.
  intros n. induction fs as [|x r IH]; intros [|y s] H; cbn [names map] in *; try discriminate; auto.
  cbn [index_of]. assert (f_name x = f_name y) by congruence. rewrite H0. rewrite (IH s); [auto|]. unfold names. congruence.
Qed.

Lemma index_of_find : forall n fs j, index_of n fs = Some j -> exists f, nth_error fs j = Some f /\ find (fun x => String.eqb n (f_name x)) fs = Some f /\ f_name f = n.
Proof.
  intros n. induction fs as [|x r IH]; intros j H; cbn [index_of] in H; [discriminate|]. cbn [find].
  destruct (String.eqb_spec n (f_name x)) as [E|E]; [apply some_inj in H; subst j; exists x; auto|].
  destruct (index_of n r) as [i|]; [|discriminate]. cbn in H. apply some_inj in H. subst j. destruct (IH i eq_refl) as [f [H1 [H2 H3]]]. exists f. auto.
Qed.

Lemma mod_first_upd : forall n g fs j f, index_of n fs = Some j -> nth_error fs j = Some f -> mod_first n g fs = upd fs j (g f).
Proof.
  intros n g. induction fs as [|x r IH]; intros j f H Hj; cbn [index_of] in H; [discriminate|]. cbn [mod_first].
  destruct (String.eqb_spec n (f_name x)) as [E|E]; [apply some_inj in H; subst j; cbn in Hj; apply some_inj in Hj; subst; reflexivity|].
  destruct (index_of n r) as [i|]; [|discriminate]. cbn in H. apply some_inj in H. subst j. cbn [upd]. f_equal. eapply IH; eauto.
Qed.

(** For a header with the layout of [t] *)
Lemma at_place_spec : forall t h n off w, names (h_fields h) = names (h_fields t) -> map lay (h_fields h) = map lay (h_fields t) ->
  at_place t n off w = true -> exists j f, index_of n (h_fields h) = Some j /\ find_field h n = Some f /\ lone h j f /\ f_off f = off /\ f_width f = w.
Proof.
  intros t h n off w HN HL H. unfold at_place in H. rewrite <- (index_of_names n _ _ HN), <- HL in H.
  destruct (index_of n (h_fields h)) as [j|] eqn:Ej; [|discriminate]. destruct (lone_chk_spec _ _ _ _ H) as [f [H1 [H2 H3]]].
  exists j, f. destruct (index_of_find _ _ _ Ej) as [f2 [K1 [K2 _]]]. assert (f2 = f) by (destruct H1; congruence). subst f2. auto.
Qed.

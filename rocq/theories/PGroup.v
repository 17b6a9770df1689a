(** The fillers that change the layout: IGMP, MLD, SV and CoAP options. *)

From Verif Require Import PTextIp Frame PSer SpecParse PParse PMatch SpecFrame PFrame PInv PStep PArgs PSoft PFill.

Lemma tmpl_igmp : forall t, In t hdr_tmpls -> h_fill t = FL_igmp -> t = HDR_IGMP.
Proof. intros t Ht Hf. which_tmpl Ht Hf. Qed.
Lemma tmpl_mld : forall t, In t hdr_tmpls -> h_fill t = FL_mld -> t = HDR_MLD.
Proof. intros t Ht Hf. which_tmpl Ht Hf. Qed.
Lemma tmpl_sv : forall t, In t hdr_tmpls -> h_fill t = FL_sv -> t = HDR_SV.
Proof. intros t Ht Hf. which_tmpl Ht Hf. Qed.
Lemma tmpl_coap_opt : forall t, In t hdr_tmpls -> h_fill t = FL_coap_opt -> t = HDR_COAP_OPTIONS.
Proof. intros t Ht Hf. which_tmpl Ht Hf. Qed.

Lemma Forall2_hd : forall A B (R : A -> B -> Prop) x y a b, Forall2 R (x :: a) (y :: b) -> R x y.
Proof. intros A B R x y a b H. inversion H. auto. Qed.
Lemma Forall2_tl : forall A B (R : A -> B -> Prop) x y a b, Forall2 R (x :: a) (y :: b) -> Forall2 R a b.
Proof. intros A B R x y a b H. inversion H. auto. Qed.

Ltac shape_inv E :=
  repeat match type of E with
  | Forall2 _ ?l (_ :: _) => let f := fresh "f" in let r := fresh "r" in
      destruct l as [|f r]; [exfalso; inversion E|];
      let E1 := fresh "E" in assert (E1 := Forall2_hd _ _ _ _ _ _ _ E); cbv beta in E1; cbn [f_name f_width f_off f_def f_parser] in E1;
      apply Forall2_tl in E
  end;
  match type of E with Forall2 _ ?l [] => destruct l; [|exfalso; inversion E] end;
  cbn [map nth]; repeat (apply (f_equal2 (@cons field)); [assumption|]); reflexivity.

Lemma any_set_given : forall ns d h, (forall n, In n ns -> exists f, find_field h n = Some f /\ (d = true -> f_def f = None)) ->
  any_set d h ns = Ret (existsb (given h) ns).
Proof.
  induction ns as [|n r IH]; intros d h H; cbn [any_set existsb]; [auto|].
  destruct (H n) as [f [Hf Hd]]; [left; auto|]. unfold fget, given at 1. rewrite Hf. cbn [bind].
  replace (d && is_some (f_def f)) with false by (destruct d; [rewrite Hd|]; auto). rewrite orb_false_r.
  destruct (is_some (f_val f)); [auto|]. cbn [orb]. apply IH. intros m Hm. apply H. right; auto.
Qed.

Ltac nodef Hn := repeat match type of Hn with _ \/ _ => destruct Hn as [<-|Hn] | False => destruct Hn end;
  eexists; (split; [vm_compute; reflexivity|intros; reflexivity]).

Definition igmp_hdr (s : nat -> bool) (v : nat -> option buf) : hdr :=
  MkHdr "igmp" 2 16
    [MkField "type" (s 0%nat) 8 0 None (v 0%nat) FP_default;
     MkField "max_resp" (s 1%nat) 8 8 None (v 1%nat) FP_default;
     MkField "chksum" (s 2%nat) 16 16 None (v 2%nat) FP_default;
     MkField "ga" (s 3%nat) 32 32 None (v 3%nat) FP_default;
     MkField "qresv" (s 4%nat) 4 64 None (v 4%nat) FP_default;
     MkField "s" (s 5%nat) 1 68 None (v 5%nat) FP_default;
     MkField "qrv" (s 6%nat) 3 69 None (v 6%nat) FP_default;
     MkField "qqic" (s 7%nat) 8 72 None (v 7%nat) FP_default;
     MkField "ns" (s 8%nat) 16 80 None (v 8%nat) FP_default;
     MkField "rresv" (s 9%nat) 16 96 None (v 9%nat) FP_default;
     MkField "ng" (s 10%nat) 16 112 None (v 10%nat) FP_default] FL_igmp HP_fields.

(** After [group_layout]: [q] when a query field was given, [r] when a report field was. *)
Definition igmp_laid (q r : bool) (s : nat -> bool) (v : nat -> option buf) : hdr :=
  MkHdr "igmp" 2 (16 - (if q then 0 else 4) - (if r then 4 else 4))
    [MkField "type" (s 0%nat) 8 0 None (v 0%nat) FP_default;
     MkField "max_resp" (s 1%nat) 8 8 None (v 1%nat) FP_default;
     MkField "chksum" (s 2%nat) 16 16 None (v 2%nat) FP_default;
     MkField "ga" (s 3%nat) (if r then 0 else 32) 32 None (v 3%nat) FP_default;
     MkField "qresv" (s 4%nat) (if q then 4 else 0) 64 None (v 4%nat) FP_default;
     MkField "s" (s 5%nat) (if q then 1 else 0) 68 None (v 5%nat) FP_default;
     MkField "qrv" (s 6%nat) (if q then 3 else 0) 69 None (v 6%nat) FP_default;
     MkField "qqic" (s 7%nat) (if q then 8 else 0) 72 None (v 7%nat) FP_default;
     MkField "ns" (s 8%nat) (if q then 16 else 0) 80 None (v 8%nat) FP_default;
     MkField "rresv" (s 9%nat) (if r then 16 else 0) (if r then 32 else 96) None (v 9%nat) FP_default;
     MkField "ng" (s 10%nat) (if r then 16 else 0) (if r then 48 else 112) None (v 10%nat) FP_default] FL_igmp HP_fields.

Lemma igmp_shape : forall h, inv HDR_IGMP h -> exists s v, h = igmp_hdr s v.
Proof.
  intros h I. destruct (inv_shape HDR_IGMP h eq_refl I) as [E1 E2].
  exists (fun k => nth k (map f_skip (h_fields h)) false), (fun k => nth k (map f_val (h_fields h)) None).
  rewrite E1 at 1. clear E1 I. unfold igmp_hdr. cbn [HDR_IGMP h_name h_type h_size h_fill h_parser]. f_equal.
  revert E2. generalize (h_fields h) as l. intros l E2. cbn [HDR_IGMP h_fields] in E2. shape_inv E2.
Qed.

Lemma igmp_group : forall s v, let h := igmp_hdr s v in
  group_layout 4 ["ga"] h =
  Ret (igmp_laid (existsb (given h) query_fields) (existsb (given h) report_fields) s v).
Proof.
  intros s v h. unfold group_layout.
  rewrite any_set_given by (subst h; intros n Hn; cbn [query_fields In] in Hn; nodef Hn). cbn [bind].
  change (existsb (given h) report_fields) with (existsb (given (set_size 0 h)) report_fields).
  destruct (existsb (given h) query_fields); cbn [bind].
  - rewrite any_set_given by (subst h; intros n Hn; cbn [report_fields In] in Hn; nodef Hn). cbn [bind].
    change (existsb (given (set_size 0 h)) report_fields) with (existsb (given h) report_fields).
    destruct (existsb (given h) report_fields); vm_compute; reflexivity.
  - match goal with |- bind (zero_widths ?a ?b) _ = _ => let x := eval vm_compute in (zero_widths a b) in
      change (zero_widths a b) with x end. cbn [bind].
    rewrite any_set_given by (intros n Hn; cbn [report_fields In] in Hn; nodef Hn). cbn [bind].
    match goal with |- (if ?e then _ else _) = _ => change e with (existsb (given (set_size 0 h)) report_fields) end.
    destruct (existsb (given (set_size 0 h)) report_fields); vm_compute; reflexivity.
Qed.


Definition mld_hdr (s : nat -> bool) (v : nat -> option buf) : hdr :=
  MkHdr "mld" 0 32
    [MkField "type" (s 0%nat) 8 0 None (v 0%nat) FP_default;
     MkField "code" (s 1%nat) 8 8 None (v 1%nat) FP_default;
     MkField "chksum" (s 2%nat) 16 16 None (v 2%nat) FP_default;
     MkField "max_resp" (s 3%nat) 16 32 None (v 3%nat) FP_default;
     MkField "rsv" (s 4%nat) 16 48 None (v 4%nat) FP_default;
     MkField "ga" (s 5%nat) 128 64 None (v 5%nat) FP_default;
     MkField "qresv" (s 6%nat) 4 192 None (v 6%nat) FP_default;
     MkField "s" (s 7%nat) 1 196 None (v 7%nat) FP_default;
     MkField "qrv" (s 8%nat) 3 197 None (v 8%nat) FP_default;
     MkField "qqic" (s 9%nat) 8 200 None (v 9%nat) FP_default;
     MkField "ns" (s 10%nat) 16 208 None (v 10%nat) FP_default;
     MkField "rresv" (s 11%nat) 16 224 None (v 11%nat) FP_default;
     MkField "ng" (s 12%nat) 16 240 None (v 12%nat) FP_default] FL_mld HP_fields.

(** After [group_layout]: [q] when a query field was given, [r] when a report field was. *)
Definition mld_laid (q r : bool) (s : nat -> bool) (v : nat -> option buf) : hdr :=
  MkHdr "mld" 0 (32 - (if q then 0 else 4) - (if r then 20 else 4))
    [MkField "type" (s 0%nat) 8 0 None (v 0%nat) FP_default;
     MkField "code" (s 1%nat) 8 8 None (v 1%nat) FP_default;
     MkField "chksum" (s 2%nat) 16 16 None (v 2%nat) FP_default;
     MkField "max_resp" (s 3%nat) (if r then 0 else 16) 32 None (v 3%nat) FP_default;
     MkField "rsv" (s 4%nat) (if r then 0 else 16) 48 None (v 4%nat) FP_default;
     MkField "ga" (s 5%nat) (if r then 0 else 128) 64 None (v 5%nat) FP_default;
     MkField "qresv" (s 6%nat) (if q then 4 else 0) 192 None (v 6%nat) FP_default;
     MkField "s" (s 7%nat) (if q then 1 else 0) 196 None (v 7%nat) FP_default;
     MkField "qrv" (s 8%nat) (if q then 3 else 0) 197 None (v 8%nat) FP_default;
     MkField "qqic" (s 9%nat) (if q then 8 else 0) 200 None (v 9%nat) FP_default;
     MkField "ns" (s 10%nat) (if q then 16 else 0) 208 None (v 10%nat) FP_default;
     MkField "rresv" (s 11%nat) (if r then 16 else 0) (if r then 32 else 224) None (v 11%nat) FP_default;
     MkField "ng" (s 12%nat) (if r then 16 else 0) (if r then 48 else 240) None (v 12%nat) FP_default] FL_mld HP_fields.

Lemma mld_shape : forall h, inv HDR_MLD h -> exists s v, h = mld_hdr s v.
Proof.
  intros h I. destruct (inv_shape HDR_MLD h eq_refl I) as [E1 E2].
  exists (fun k => nth k (map f_skip (h_fields h)) false), (fun k => nth k (map f_val (h_fields h)) None).
  rewrite E1 at 1. clear E1 I. unfold mld_hdr. cbn [HDR_MLD h_name h_type h_size h_fill h_parser]. f_equal.
  revert E2. generalize (h_fields h) as l. intros l E2. cbn [HDR_MLD h_fields] in E2. shape_inv E2.
Qed.

Lemma mld_group : forall s v, let h := mld_hdr s v in
  group_layout 20 ["ga"; "max_resp"; "rsv"] h =
  Ret (mld_laid (existsb (given h) query_fields) (existsb (given h) report_fields) s v).
Proof.
  intros s v h. unfold group_layout.
  rewrite any_set_given by (subst h; intros n Hn; cbn [query_fields In] in Hn; nodef Hn). cbn [bind].
  change (existsb (given h) report_fields) with (existsb (given (set_size 0 h)) report_fields).
  destruct (existsb (given h) query_fields); cbn [bind].
  - rewrite any_set_given by (subst h; intros n Hn; cbn [report_fields In] in Hn; nodef Hn). cbn [bind].
    change (existsb (given (set_size 0 h)) report_fields) with (existsb (given h) report_fields).
    destruct (existsb (given h) report_fields); vm_compute; reflexivity.
  - match goal with |- bind (zero_widths ?a ?b) _ = _ => let x := eval vm_compute in (zero_widths a b) in
      change (zero_widths a b) with x end. cbn [bind].
    rewrite any_set_given by (intros n Hn; cbn [report_fields In] in Hn; nodef Hn). cbn [bind].
    match goal with |- (if ?e then _ else _) = _ => change e with (existsb (given (set_size 0 h)) report_fields) end.
    destruct (existsb (given (set_size 0 h)) report_fields); vm_compute; reflexivity.
Qed.



Lemma put_text_soff : forall n txt k h f, 0 <= k <= 8 -> find_field h n = Some f -> soff h ->
  exists o, parse_bytes txt k = Ret o /\ put_text n txt k h = Ret (fmod n (set_val o) h) /\ soff (fmod n (set_val o) h).
Proof.
  intros n txt k h f Hk Hf [S1 S2]. destruct (parse_bytes_safe8 txt k Hk) as [o Ho]. exists o. split; auto.
  unfold put_text, fset, fget. rewrite Ho. cbn [bind]. rewrite Hf. cbn [bind]. split; auto.
  split; [exact S1|]. cbn [fmod h_fields set_fields]. apply mod_first_Forall; auto.
Qed.

Lemma fmod_wf : forall h n f o, wf_hdr false h -> find_field h n = Some f -> within h f -> f_def f = None ->
  (forall v, o = Some v -> f_width f <= 8 * zlen v /\ bytes_ok v /\ zlen v <= 8) ->
  wf_hdr false (fmod n (set_val o) h).
Proof.
  intros h n f o [W1 W2] Hf [I1 [I2 I3]] Hd Hv. split; [exact W1|]. unfold fmod. cbn [set_fields h_fields h_size].
  unfold find_field in Hf. apply find_split in Hf. destruct Hf as [A [B [H1 [_ [H2 _]]]]]. rewrite H2. rewrite H1 in W2.
  apply Forall_app in W2. destruct W2 as [W2 W3]. apply Forall_app. split; auto. constructor; [|apply Forall_inv_tail in W3; auto].
  split; [cbn [set_val f_width]; lia|]. intros v E. cbn in E. destruct o as [x|]; [|congruence]. apply some_inj in E. subst x.
  destruct (Hv v eq_refl) as [V1 [V2 V3]]. cbn [set_val f_off f_width]. repeat split; auto; try lia. apply small_lim. pose proof size_limit_val. lia.
Qed.

Lemma chksum_put : forall h h' f txt, soff h' -> find_field h' "chksum" = Some f -> within h' f -> f_def f = None -> f_width f = 16 ->
  (regular h = true -> wf_hdr false h') ->
  exists o, put_text "chksum" txt 2 h' = Ret (fmod "chksum" (set_val o) h') /\ soff (fmod "chksum" (set_val o) h') /\
            (regular h = true -> wf_hdr false (fmod "chksum" (set_val o) h')).
Proof.
  intros h h' f txt S Hf Hw Hd H16 W. destruct (put_text_soff "chksum" txt 2 h' f) as [o [Ho [Hp Hs]]]; auto; [lia|].
  exists o. split; auto. split; auto. intros R. apply (fmod_wf h' "chksum" f); auto.
  intros v ->. destruct (parse_bytes_len txt 2 v ltac:(lia) Ho). repeat split; auto; lia.
Qed.

Ltac forall_split := repeat match goal with |- Forall _ (_ :: _) => constructor | |- Forall _ [] => constructor end.

Lemma fok_wf : forall s w o d v p n size off', fok (MkField n s w o d v p) -> d = None -> forall w', 0 <= w' <= w ->
  w' <= 8 * size -> (is_some v = true -> 0 <= off' /\ off' + w' <= 8 * size) ->
  wf_src false size (MkField n s w' off' d v p).
Proof.
  intros s w o d v p n size off' H -> w' Hw' Hs Hv. split; [cbn [f_width]; lia|]. intros x Hx. cbn in Hx. destruct v as [y|]; [|discriminate].
  apply some_inj in Hx. subst y. destruct (Hv eq_refl) as [K1 K2]. destruct (H x) as [J1 [J2 [J3 _]]]; [reflexivity|].
  cbn [f_width f_off] in *. repeat split; auto; try lia. apply small_lim. pose proof size_limit_val. lia.
Qed.

Lemma igmp_laid_ok : forall q r s v, Forall fok (h_fields (igmp_hdr s v)) ->
  (q = false -> existsb (given (igmp_hdr s v)) query_fields = false) ->
  (r = false -> existsb (given (igmp_hdr s v)) report_fields = false) ->
  wf_hdr false (igmp_laid q r s v) /\ soff (igmp_laid q r s v) /\
  exists f, find_field (igmp_laid q r s v) "chksum" = Some f /\ within (igmp_laid q r s v) f /\ f_def f = None /\ f_width f = 16.
Proof.
  intros q r s v F Hq Hr. unfold igmp_hdr in F. cbn [h_fields] in F.
  repeat match type of F with Forall _ (_ :: _) => let K := fresh "K" in pose proof (Forall_inv F) as K; apply Forall_inv_tail in F end.
  clear F.
  assert (Hq' : q = false -> v 4%nat = None /\ v 5%nat = None /\ v 6%nat = None /\ v 7%nat = None /\ v 8%nat = None).
  { intros E. specialize (Hq E). cbn in Hq. repeat rewrite orb_false_iff in Hq.
    destruct (v 4%nat), (v 5%nat), (v 6%nat), (v 7%nat), (v 8%nat); cbn in Hq; intuition congruence. }
  assert (Hr' : r = false -> v 9%nat = None /\ v 10%nat = None).
  { intros E. specialize (Hr E). cbn in Hr. destruct (v 9%nat), (v 10%nat); cbn in Hr; intuition congruence. }
  clear Hq Hr. split; [split|split; [split|]].
  - destruct q, r; cbn; lia.
  - cbn [igmp_laid h_fields h_size].
    forall_split; (eapply fok_wf; [eassumption|reflexivity| | |]); try (destruct q, r; lia);
      intros Hsome; destruct q, r; try lia;
      exfalso; first [destruct (Hq' eq_refl) as [? [? [? [? ?]]]] | idtac]; try destruct (Hr' eq_refl) as [? ?];
      match goal with E : v ?k = None, Hs : is_some (v ?k) = true |- _ => rewrite E in Hs; discriminate end.
  - destruct q, r; cbn; lia.
  - cbn [igmp_laid h_fields]. forall_split; cbn [f_off]; destruct r; lia.
  - eexists. split; [reflexivity|]. split; [|split; reflexivity]. unfold within. cbn [f_off f_width igmp_laid h_size]. destruct q, r; lia.
Qed.

Lemma mld_laid_ok : forall q r s v, Forall fok (h_fields (mld_hdr s v)) ->
  (q = false -> existsb (given (mld_hdr s v)) query_fields = false) ->
  (r = false -> existsb (given (mld_hdr s v)) report_fields = false) ->
  (q && r = false -> wf_hdr false (mld_laid q r s v)) /\ soff (mld_laid q r s v) /\
  exists f, find_field (mld_laid q r s v) "chksum" = Some f /\ within (mld_laid q r s v) f /\ f_def f = None /\ f_width f = 16.
Proof.
  intros q r s v F Hq Hr. unfold mld_hdr in F. cbn [h_fields] in F.
  repeat match type of F with Forall _ (_ :: _) => let K := fresh "K" in pose proof (Forall_inv F) as K; apply Forall_inv_tail in F end.
  clear F.
  assert (Hq' : q = false -> v 6%nat = None /\ v 7%nat = None /\ v 8%nat = None /\ v 9%nat = None /\ v 10%nat = None).
  { intros E. specialize (Hq E). cbn in Hq. repeat rewrite orb_false_iff in Hq.
    destruct (v 6%nat), (v 7%nat), (v 8%nat), (v 9%nat), (v 10%nat); cbn in Hq; intuition congruence. }
  assert (Hr' : r = false -> v 11%nat = None /\ v 12%nat = None).
  { intros E. specialize (Hr E). cbn in Hr. destruct (v 11%nat), (v 12%nat); cbn in Hr; intuition congruence. }
  clear Hq Hr. split; [intros Hqr; split|split; [split|]].
  - destruct q, r; cbn; lia.
  - cbn [mld_laid h_fields h_size].
    forall_split; (eapply fok_wf; [eassumption|reflexivity| | |]); try (destruct q, r; try discriminate Hqr; lia);
      intros Hsome; destruct q, r; try discriminate Hqr; try lia;
      exfalso; first [destruct (Hq' eq_refl) as [? [? [? [? ?]]]] | idtac]; try destruct (Hr' eq_refl) as [? ?];
      match goal with E : v ?k = None, Hs : is_some (v ?k) = true |- _ => rewrite E in Hs; discriminate end.
  - destruct q, r; cbn; lia.
  - cbn [mld_laid h_fields]. forall_split; cbn [f_off]; destruct r; lia.
  - eexists. split; [reflexivity|]. split; [|split; reflexivity]. unfold within. cbn [f_off f_width mld_laid h_size]. destruct q, r; lia.
Qed.

Lemma igmp_fills : forall a stk i t h, at_pos a stk i t h -> h_fill t = FL_igmp -> fills a t h stk i (igmp_fill_defaults stk i).
Proof.
  intros a stk i t h A Hf. destruct A as [Hn Ht I Hl Hs Hrg]. pose proof (tmpl_igmp t Ht Hf) as ->. unfold igmp_fill_defaults.
  destruct (igmp_shape h I) as [s [v E]]. rewrite (hget_ok _ _ _ Hn). cbn [bind].
  assert (G1 : fget h "chksum" = Ret (MkField "chksum" (s 2%nat) 16 16 None (v 2%nat) FP_default)) by (rewrite E; reflexivity).
  assert (G2 : group_layout 4 ["ga"] h = Ret (igmp_laid (existsb (given (igmp_hdr s v)) query_fields) (existsb (given (igmp_hdr s v)) report_fields) s v))
    by (rewrite E; apply igmp_group).
  rewrite G1. cbn [bind]. rewrite G2. cbn [bind].
  set (q := existsb (given (igmp_hdr s v)) query_fields). set (r := existsb (given (igmp_hdr s v)) report_fields).
  destruct (igmp_laid_ok q r s v) as [W [S [f [F1 [F2 [F3 F4]]]]]]; auto.
  { rewrite <- E. apply I. }
  assert (Hfin : forall h', soff h' -> h_name h' = "igmp"%string -> h_fill h' = FL_igmp -> wf_hdr false h' -> filled HDR_IGMP h h').
  { intros h' S' N' L' W'. rewrite E. split; auto. split; [rewrite N'; auto|]. split; [rewrite L'; auto|]. split; [discriminate|auto]. }
  cbn [f_val]. destruct (v 2%nat).
  - eexists. split; [reflexivity|]. apply Hfin; auto.
  - eapply okp_bind; [apply serialize_soft; [|discriminate]; apply good_skipn, upd_Forall; [auto|split; auto]|]. intros b _.
    destruct (chksum_put h _ f (fmt_0x (inet_chksum 0 b)) S F1 F2 F3 F4) as [o [P1 [P2 P3]]]; [auto|].
    rewrite P1. cbn [bind]. eexists. split; [reflexivity|]. apply Hfin; auto. apply P3. rewrite E. reflexivity.
Qed.

Lemma mld_fills : forall a stk i t h, at_pos a stk i t h -> h_fill t = FL_mld -> fills a t h stk i (mld_fill_defaults stk i).
Proof.
  intros a stk i t h A Hf. destruct A as [Hn Ht I Hl Hs Hrg]. pose proof (tmpl_mld t Ht Hf) as ->. unfold mld_fill_defaults.
  destruct (mld_shape h I) as [s [v E]]. rewrite (hget_ok _ _ _ Hn). cbn [bind].
  assert (G1 : fget h "chksum" = Ret (MkField "chksum" (s 2%nat) 16 16 None (v 2%nat) FP_default)) by (rewrite E; reflexivity).
  assert (G2 : group_layout 20 ["ga"; "max_resp"; "rsv"] h = Ret (mld_laid (existsb (given (mld_hdr s v)) query_fields) (existsb (given (mld_hdr s v)) report_fields) s v))
    by (rewrite E; apply mld_group).
  rewrite G1. cbn [bind]. rewrite G2. cbn [bind].
  set (q := existsb (given (mld_hdr s v)) query_fields). set (r := existsb (given (mld_hdr s v)) report_fields).
  destruct (mld_laid_ok q r s v) as [W [S [f [F1 [F2 [F3 F4]]]]]]; auto.
  { rewrite <- E. apply I. }
  assert (Hreg : regular h = true -> wf_hdr false (mld_laid q r s v)).
  { rewrite E. intros R. apply W. unfold regular in R. cbn [mld_hdr h_fill] in R. apply negb_true_iff in R. exact R. }
  assert (Hfin : forall h', soff h' -> h_name h' = "mld"%string -> h_fill h' = FL_mld -> (regular h = true -> wf_hdr false h') -> filled HDR_MLD h h').
  { intros h' S' N' L' W'. split; auto. split; [rewrite N', E; auto|]. split; [rewrite L', E; auto|]. split; [discriminate|auto]. }
  cbn [f_val]. destruct (v 2%nat).
  - eexists. split; [reflexivity|]. apply Hfin; auto.
  - assert (Hex : okp a (fun stk' => exists h', stk' = upd stk i h' /\ filled HDR_MLD h h') (Crash Exit_call)) by (right; left; auto).
    destruct (find_ipv6 stk i) as [ip|]; [|exact Hex].
    destruct (find_field ip "sip") as [sf|]; [|exact Hex]. destruct (find_field ip "dip") as [df|]; [|exact Hex].
    destruct (f_val sf) as [sip|]; [|exact Hex]. destruct (f_val df) as [dip|]; [|exact Hex].
    destruct ((zlen sip =? 16) && (zlen dip =? 16)); [|exact Hex].
    eapply okp_bind; [apply len_from_soft, good_skipn, upd_Forall; [auto|split; auto]|]. intros k _.
    eapply okp_bind; [apply serialize_soft; [|discriminate]; apply good_skipn, upd_Forall; [auto|split; auto]|]. intros b _.
    set (sum := chksum_loop 0 _).
    destruct (chksum_put h _ f (fmt_0x (inet_chksum sum b)) S F1 F2 F3 F4 Hreg) as [o [P1 [P2 P3]]].
    rewrite P1. cbn [bind]. eexists. split; [reflexivity|]. apply Hfin; auto.
Qed.

Definition sv_hdr (s : nat -> bool) (v : nat -> option buf) : hdr :=
  MkHdr "sv" 35067 22
    [MkField "path" (s 0%nat) 4 0 None (v 0%nat) FP_default;
     MkField "ver" (s 1%nat) 12 4 (Some [0; 1]) (v 1%nat) FP_default;
     MkField "seqn" (s 2%nat) 16 16 None (v 2%nat) FP_default;
     MkField "tlv1_type" (s 3%nat) 8 32 (Some [20]) (v 3%nat) FP_default;
     MkField "tlv1_len" (s 4%nat) 8 40 (Some [6]) (v 4%nat) FP_default;
     MkField "tlv1_mac" (s 5%nat) 48 48 None (v 5%nat) FP_default;
     MkField "tlv2_type" (s 6%nat) 8 96 (Some [30]) (v 6%nat) FP_default;
     MkField "tlv2_len" (s 7%nat) 8 104 (Some [6]) (v 7%nat) FP_default;
     MkField "tlv2_mac" (s 8%nat) 48 112 None (v 8%nat) FP_default;
     MkField "tlv0_type" (s 9%nat) 8 160 None (v 9%nat) FP_default;
     MkField "tlv0_len" (s 10%nat) 8 168 None (v 10%nat) FP_default] FL_sv HP_fields.

(** Without TLV2. *)
Definition sv_short (s : nat -> bool) (v : nat -> option buf) : hdr :=
  MkHdr "sv" 35067 14
    [MkField "path" (s 0%nat) 4 0 None (v 0%nat) FP_default;
     MkField "ver" (s 1%nat) 12 4 (Some [0; 1]) (v 1%nat) FP_default;
     MkField "seqn" (s 2%nat) 16 16 None (v 2%nat) FP_default;
     MkField "tlv1_type" (s 3%nat) 8 32 (Some [20]) (v 3%nat) FP_default;
     MkField "tlv1_len" (s 4%nat) 8 40 (Some [6]) (v 4%nat) FP_default;
     MkField "tlv1_mac" (s 5%nat) 48 48 None (v 5%nat) FP_default;
     MkField "tlv2_type" (s 6%nat) 0 96 (Some [30]) (v 6%nat) FP_default;
     MkField "tlv2_len" (s 7%nat) 0 104 (Some [6]) (v 7%nat) FP_default;
     MkField "tlv2_mac" (s 8%nat) 0 112 None (v 8%nat) FP_default;
     MkField "tlv0_type" (s 9%nat) 8 160 None (v 9%nat) FP_default;
     MkField "tlv0_len" (s 10%nat) 8 168 None (v 10%nat) FP_default] FL_sv HP_fields.

Lemma sv_shape : forall h, inv HDR_SV h -> exists s v, h = sv_hdr s v.
Proof.
  intros h I. destruct (inv_shape HDR_SV h eq_refl I) as [E1 E2].
  exists (fun k => nth k (map f_skip (h_fields h)) false), (fun k => nth k (map f_val (h_fields h)) None).
  rewrite E1 at 1. clear E1 I. unfold sv_hdr. cbn [HDR_SV h_name h_type h_size h_fill h_parser]. f_equal.
  revert E2. generalize (h_fields h) as l. intros l E2. cbn [HDR_SV h_fields] in E2. shape_inv E2.
Qed.

Lemma sv_default : forall s v stk i, nth_error stk i = Some (sv_hdr s v) ->
  sv_fill_defaults stk i =
  Ret (if existsb (given (sv_hdr s v)) tlv2_fields then stk else upd stk i (sv_short s v)).
Proof.
  intros s v stk i Hn. unfold sv_fill_defaults. rewrite (hget_ok _ _ _ Hn). cbn [bind].
  rewrite any_set_given.
  2:{ intros n Hn'. cbn [tlv2_fields In] in Hn'.
      repeat match type of Hn' with _ \/ _ => destruct Hn' as [<-|Hn'] | False => destruct Hn' end;
      eexists; (split; [vm_compute; reflexivity|discriminate]). }
  cbn [bind]. destruct (existsb (given (sv_hdr s v)) tlv2_fields); [auto|].
  match goal with |- bind (zero_widths ?a ?b) _ = _ => change (zero_widths a b) with (Ret (sv_short s v)) end. auto.
Qed.

Lemma fok_wf' : forall s w o d v p n size off', fok (MkField n s w o d v p) -> forall w', 0 <= w' <= w ->
  w' <= 8 * size -> (is_some v || is_some d = true -> 0 <= off' /\ off' + w' <= 8 * size) ->
  wf_src false size (MkField n s w' off' d v p).
Proof.
  intros s w o d v p n size off' H w' Hw' Hs Hv. split; [cbn [f_width]; lia|]. intros x Hx.
  destruct (H x) as [J1 [J2 [J3 _]]]; [exact Hx|].
  destruct Hv as [K1 K2]. { cbn in Hx. destruct v as [y|]; [reflexivity|]. cbn in Hx. rewrite Hx. reflexivity. }
  cbn [f_width f_off] in *. repeat split; auto; try lia. apply small_lim. pose proof size_limit_val. lia.
Qed.

Lemma sv_fills : forall a stk i t h, at_pos a stk i t h -> h_fill t = FL_sv -> fills a t h stk i (sv_fill_defaults stk i).
Proof.
  intros a stk i t h A Hf. destruct A as [Hn Ht I Hl Hs Hrg]. pose proof (tmpl_sv t Ht Hf) as ->.
  destruct (sv_shape h I) as [s [v E]]. rewrite E in Hn. rewrite (sv_default _ _ _ _ Hn). rewrite <- E in *.
  destruct (existsb (given h) tlv2_fields) eqn:Eg; [apply fills_same; auto|].
  eexists. split; [reflexivity|]. split; [|split; [rewrite E; reflexivity|split; [rewrite E; reflexivity|split; [discriminate|]]]].
  - split; [cbn; lia|]. cbn [sv_short h_fields]. forall_split; cbn [f_off]; lia.
  - intros R. unfold regular in R. replace (h_fill h) with FL_sv in R by (rewrite E; auto).
    unfold tlv2_fields in Eg. rewrite Eg in R. cbn [orb] in R. apply negb_true_iff in R.
    assert (HN : v 9%nat = None /\ v 10%nat = None).
    { rewrite E in R. cbn in R. destruct (v 9%nat), (v 10%nat); cbn in R; try discriminate; auto. }
    pose proof (i_val _ _ I) as F. rewrite E in F. unfold sv_hdr in F. cbn [h_fields] in F.
    repeat match type of F with Forall _ (_ :: _) => let K := fresh "K" in pose proof (Forall_inv F) as K; apply Forall_inv_tail in F end.
    destruct HN as [N1 N2]. split; [cbn; lia|]. cbn [sv_short h_fields h_size].
    forall_split; (eapply fok_wf'; [eassumption| | |]); try lia; intros Hsome; try lia;
      first [rewrite N1 in Hsome|rewrite N2 in Hsome]; discriminate.
Qed.

(** *** CoAP options *)
Definition opt_hdr (s0 s1 : bool) (w1 size : Z) (v0 v1 : option buf) : hdr :=
  MkHdr "coap-opt" 0 size
    [MkField "num" s0 16 0 None v0 FP_default; MkField "val" s1 w1 16 None v1 FP_coap_opt_val] FL_coap_opt HP_fields.

Lemma opt_shape : forall h, inv HDR_COAP_OPTIONS h -> exists s0 s1 w1 size v0 v1, h = opt_hdr s0 s1 w1 size v0 v1 /\
  0 <= w1 /\ w1 mod 8 = 0 /\ 16 + w1 <= 8 * size.
Proof.
  intros h I. pose proof (i_sig _ _ I) as HS. destruct (i_var _ _ I eq_refl) as [J1 [J2 J3]].
  pose proof (i_name _ _ I) as E1. pose proof (i_type _ _ I) as E2. pose proof (i_fill _ _ I) as E3. pose proof (i_parser _ _ I) as E4.
  destruct h as [hn hty hs hf hfl hp]. cbn [h_name h_type h_size h_fields h_fill h_parser] in *. clear I.
  destruct hf as [|f0 [|f1 [|f2 r]]]; try discriminate HS. cbn [map HDR_COAP_OPTIONS h_fields] in HS.
  destruct f0 as [n0 k0 x0 o0 d0 u0 p0]. destruct f1 as [n1 k1 x1 o1 d1 u1 p1].
  cbn [map lay seqok f_off f_width] in J1. destruct J1 as [L1 [L2 [L3 [L4 _]]]].
  unfold sumw in J2. cbn [fold_right f_width] in J2.
  set (T := HDR_COAP_OPTIONS) in HS.
  assert (A1 : fsig T (MkField n0 k0 x0 o0 d0 u0 p0) = fsig T (MkField "num" false 16 0 None None FP_default)) by congruence.
  assert (A2 : fsig T (MkField n1 k1 x1 o1 d1 u1 p1) = fsig T (MkField "val" false 0 16 None None FP_coap_opt_val)) by congruence.
  clear HS. pose proof (fsig_isv _ _ _ A1) as B1. pose proof (fsig_isv _ _ _ A2) as B2.
  unfold fsig in A1, A2. rewrite B1 in A1. rewrite B2 in A2. cbn in A1, A2.
  assert (n0 = "num"%string) by congruence. assert (p0 = FP_default) by congruence. assert (d0 = None) by congruence. assert (x0 = 16) by congruence.
  assert (n1 = "val"%string) by congruence. assert (p1 = FP_coap_opt_val) by congruence. assert (d1 = None) by congruence.
  subst. pose proof (Forall_inv (Forall_inv_tail J3)) as J4. cbv beta in J4. specialize (J4 eq_refl). cbn [f_width] in J4.
  exists k0, k1, x1, hs, u0, u1. split; [reflexivity|]. lia.
Qed.

Lemma opt_split_bytes : forall x n e, 0 <= x < 65536 -> opt_split x = (n, e) -> 0 <= n <= 14 /\ bytes_ok e /\ zlen e <= 2.
Proof.
  intros x n e Hx H. unfold opt_split in H.
  destruct (Z.ltb_spec 12 x); [destruct (Z.ltb_spec 268 x)|]; apply pair_inj in H; destruct H as [<- <-].
  - assert (Hu : 0 <= u16 (x - 269) < 65536) by (unfold u16; lia). split; [lia|]. split; [|reflexivity || (rewrite !zlen_cons, zlen_nil; lia)].
    repeat constructor; unfold byte_ok; rewrite ?Z.shiftr_div_pow2 by lia; try (change (2 ^ 8) with 256; lia).
    all: change 255 with (Z.ones 8); rewrite Z.land_ones by lia; change (2 ^ 8) with 256; lia.
  - split; [lia|]. split; [|rewrite !zlen_cons, zlen_nil; lia]. constructor; [unfold byte_ok, u8; lia|constructor].
  - split; [lia|]. split; [constructor|rewrite zlen_nil; lia].
Qed.

Definition opt_filled (s0 s1 : bool) (w1 : Z) (bb v : buf) : hdr :=
  MkHdr "coap-opt" 0 ((8 * zlen bb + w1) / 8)
    [MkField "num" s0 (8 * zlen bb) 0 None (Some bb) FP_default;
     MkField "val" s1 w1 (8 * zlen bb) None (Some v) FP_coap_opt_val] FL_coap_opt HP_fields.

Definition opt_bytes (num v : buf) : buf :=
  let '(dn, de) := opt_split (u16 (nth 0 num 0 * 256 + nth 1 num 0)) in
  let '(ln, le) := opt_split (u16 (zlen v)) in
  u8 (Z.lor (u8 (Z.shiftl dn 4)) (Z.land ln 15)) :: de ++ le.

Lemma opt_bytes_ok : forall num v, bytes_ok (opt_bytes num v) /\ 1 <= zlen (opt_bytes num v) <= 5.
Proof.
  intros num v. unfold opt_bytes.
  destruct (opt_split (u16 (nth 0 num 0 * 256 + nth 1 num 0))) as [dn de] eqn:E1.
  destruct (opt_split (u16 (zlen v))) as [ln le] eqn:E2.
  apply opt_split_bytes in E1; [|unfold u16; lia]. apply opt_split_bytes in E2; [|unfold u16; lia].
  destruct E1 as [A1 [A2 A3]], E2 as [B1 [B2 B3]]. split.
  - constructor; [unfold byte_ok, u8; lia|]. apply Forall_app. auto.
  - rewrite zlen_cons, zlen_app. pose proof (zlen_nonneg _ de). pose proof (zlen_nonneg _ le). lia.
Qed.

Lemma opt_default : forall s0 s1 w1 size num v stk i, nth_error stk i = Some (opt_hdr s0 s1 w1 size (Some num) (Some v)) ->
  2 <= zlen num ->
  options_fill_defaults stk i = Ret (upd stk i (opt_filled s0 s1 w1 (opt_bytes num v) v)).
Proof.
  intros s0 s1 w1 size num v stk i Hn Hl. unfold options_fill_defaults. rewrite (hget_ok _ _ _ Hn). cbn [bind].
  set (h := opt_hdr _ _ _ _ _ _). change (fget h "num") with (Ret (MkField "num" s0 16 0 None (Some num) FP_default)).
  change (fget h "val") with (Ret (MkField "val" s1 w1 16 None (Some v) FP_coap_opt_val)). cbn [bind f_val].
  rewrite !bget_ok by lia. cbn [bind]. change (Z.to_nat 0) with O. change (Z.to_nat 1) with 1%nat. unfold opt_bytes.
  destruct (opt_split (u16 (nth 0 num 0 * 256 + nth 1 num 0))) as [dn de].
  destruct (opt_split (u16 (zlen v))) as [ln le]. set (bb := _ :: de ++ le).
  change (fset "num" (set_val (Some bb)) h) with (Ret (opt_hdr s0 s1 w1 size (Some bb) (Some v))). cbn [bind]. f_equal. f_equal.
  rewrite (Z.mul_comm (zlen bb) 8). unfold opt_filled. generalize (8 * zlen bb) as w. intros w. reflexivity.
Qed.

Lemma opt_fills : forall a stk i t h, at_pos a stk i t h -> h_fill t = FL_coap_opt -> fills a t h stk i (options_fill_defaults stk i).
Proof.
  intros a stk i t h A Hf. destruct A as [Hn Ht I Hl Hs Hrg]. pose proof (tmpl_coap_opt t Ht Hf) as ->.
  destruct (opt_shape h I) as [s0 [s1 [w1 [size [v0 [v1 [E [W1 [W2 W3]]]]]]]]].
  destruct v0 as [num|]; [destruct v1 as [v|]|].
  2,3: unfold options_fill_defaults; rewrite (hget_ok _ _ _ Hn); cbn [bind]; rewrite E; cbn; rewrite <- E; apply fills_same; auto.
  pose proof (i_val _ _ I) as F. rewrite E in F. unfold opt_hdr in F. cbn [h_fields] in F.
  pose proof (Forall_inv F num eq_refl) as [N1 [N2 N3]]. pose proof (Forall_inv (Forall_inv_tail F) v eq_refl) as [V1 [V2 V3]]. cbn [f_width] in N1, V1.
  rewrite E in Hn. rewrite (opt_default _ _ _ _ _ _ _ _ Hn) by lia. rewrite <- E in Hn.
  destruct (opt_bytes_ok num v) as [O1 O2]. set (bb := opt_bytes num v) in *.
  eexists. split; [reflexivity|]. split; [|split; [rewrite E; reflexivity|split; [rewrite E; reflexivity|split; [discriminate|]]]].
  - split; [cbn [opt_filled h_size]; lia|]. cbn [opt_filled h_fields]. forall_split; cbn [f_off]; lia.
  - intros _. split; [cbn [opt_filled h_size]; lia|]. cbn [opt_filled h_fields h_size]. pose proof size_limit_val.
    forall_split; (split; [cbn [f_width]; lia|]); intros x Hx; cbn in Hx; apply some_inj in Hx; subst x; cbn [f_off f_width];
      repeat split; auto; try lia; apply small_lim; lia.
Qed.

(** *** All fillers *)
Lemma run_fills : forall a stk i t h, at_pos a stk i t h -> fills a t h stk i (run_fill (h_fill h) stk i).
Proof.
  intros a stk i t h A. rewrite (i_fill _ _ (a_inv _ _ _ _ _ A)). destruct (h_fill t) eqn:E; cbn [run_fill].
  - eapply fills_same; apply A.
  - apply ether_fills; auto.
  - apply ipv4_fills; auto.
  - apply ipv6_fills; auto.
  - apply icmp_fills; auto.
  - apply igmp_fills; auto.
  - apply mld_fills; auto.
  - apply udp_tcp_fills; auto.
  - apply ptp_fills; auto. intros f Ef. pose proof (fill_checked t (a_in _ _ _ _ _ A)) as H. unfold fill_chk in H.
    rewrite !andb_true_iff in H. rewrite E, Ef in H. apply H.
  - apply ptp_fills; auto. intros f Ef. pose proof (fill_checked t (a_in _ _ _ _ _ A)) as H. unfold fill_chk in H.
    rewrite !andb_true_iff in H. rewrite E, Ef in H. apply H.
  - apply coap_fills; auto.
  - apply opt_fills; auto.
  - apply sv_fills; auto.
Qed.

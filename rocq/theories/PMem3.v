(** Memory: storing values; parsing and filling keep names and defaults. *)

From Verif Require Import PMem PMem2 SpecMem BaseFacts.
From Coq Require Import Permutation.

Ltac bs H := repeat match type of H with bind _ _ = _ => binv H end.

Definition alike (f f' : field) : Prop :=
  f_name f' = f_name f /\ f_def f' = f_def f /\ f_parser f' = f_parser f.
Definition alike_h (h h' : hdr) : Prop :=
  h_name h' = h_name h /\ h_fill h' = h_fill h /\ h_parser h' = h_parser h /\
  Forall2 alike (h_fields h) (h_fields h').

Lemma alike_refl : forall f, alike f f.
Proof. unfold alike. auto. Qed.
Lemma alike_trans : forall f g k, alike f g -> alike g k -> alike f k.
Proof. unfold alike. intros f g k (A & B & C) (D & E & F). repeat split; congruence. Qed.
Lemma alikes_refl : forall l, Forall2 alike l l.
Proof. induction l; constructor; auto. apply alike_refl. Qed.
Lemma alikes_trans : forall l1 l2 l3, Forall2 alike l1 l2 -> Forall2 alike l2 l3 -> Forall2 alike l1 l3.
Proof. intros l1 l2 l3 HA. revert l3. induction HA; intros l3 HB; inversion HB; subst; constructor; eauto using alike_trans. Qed.
Lemma alike_h_refl : forall h, alike_h h h.
Proof. unfold alike_h. intros. repeat (split; [reflexivity|]). apply alikes_refl. Qed.
Lemma alike_h_trans : forall a b c, alike_h a b -> alike_h b c -> alike_h a c.
Proof. unfold alike_h. intros a b c (A & B & C & D) (E & F & G & I). repeat (split; [congruence|]). eapply alikes_trans; eauto. Qed.

(** ** Storing *)

Lemma runs_new_buf : forall H R v, in_use H R ->
  runs H R (m_new_buf v) (Ret tt) (fun _ p H' T => T = the p /\ is_buf H' p v).
Proof.
  intros H R [b|] HU; cbn [m_new_buf].
  - eapply runs_then; [apply runs_alloc; exact HU|]. intros a G T HG HT [-> HA]. eapply runs_ret; [exact HG|]. auto.
  - eapply runs_ret with (T := []); auto. split; auto. exact I.
Qed.

Lemma opt_buf_eqb_eq : forall a b, opt_buf_eqb a b = true -> a = b.
Proof. intros [a|] [b|] E; cbn in E; try discriminate; auto. destruct (list_eq_dec Z.eq_dec a b); congruence. Qed.

Lemma runs_store_field : forall H R c f f', is_field H c f -> alike f f' -> in_use H (owned c ++ R) ->
  runs H R (m_store_field c f') (Ret tt) (fun _ c' H' T => T = owned c' /\ is_field H' c' f').
Proof.
  intros H R c f f' (E1 & E2 & E3 & E4 & E5 & HD & HV) (A1 & A2 & A3) HU. unfold m_store_field.
  eapply runs_step; [eapply get_buf_eq; exact HV|]. destruct (opt_buf_eqb (f_val f) (f_val f')) eqn:EB.
  - apply opt_buf_eqb_eq in EB. eapply runs_step; [reflexivity|]. eapply runs_ret; [exact HU|]. split; [reflexivity|].
    unfold is_field. cbn [mf_name mf_skip mf_width mf_off mf_parser mf_def mf_val].
    split; [congruence|]. split; [reflexivity|]. split; [reflexivity|]. split; [reflexivity|]. split; [congruence|]. split; [rewrite A2; auto|rewrite <- EB; auto].
  - unfold owned in HU.
    assert (HN : runs H R (n <~ m_new_buf (f_val f');; m_bfree (mf_val c) ~;; ret n) (Ret tt)
       (fun _ p H' T => T = the p ++ the (mf_def c) /\ is_buf H' p (f_val f') /\ untouched H H' (the (mf_def c)))).
    { eapply runs_then; [apply runs_frame with (S := the (mf_val c) ++ the (mf_def c)); apply runs_new_buf; eapply in_use_perm; [exact HU|perm]|].
      intros p G1 T1 HU1 HT1 (T' & -> & (-> & HB) & HS).
      eapply runs_then; [apply runs_frame with (S := the p ++ the (mf_def c)); eapply runs_free_buf; [eapply in_use_perm; [exact HU1|perm]|]; eapply is_buf_stable; [exact HV|via HS]|].
      intros [] G2 T2 HU2 HT2 (T' & -> & -> & HS2). eapply runs_ret; [exact HU2|]. cbn [app]. split; [reflexivity|].
      split; [eapply is_buf_stable; [exact HB|via HS2]|]. apply (untouched_trans _ G1 _); [via HS|via HS2]. }
    eapply runs_then; [exact HN|]. intros p G T HG HT (-> & HB & HS).
    eapply runs_ret with (T := the (mf_def c) ++ the p); [eapply in_use_perm; [exact HG|perm]|]. split; [reflexivity|].
    unfold is_field. cbn [mf_name mf_skip mf_width mf_off mf_parser mf_def mf_val].
    split; [congruence|]. split; [reflexivity|]. split; [reflexivity|]. split; [reflexivity|]. split; [congruence|]. split; [rewrite A2; eapply is_buf_stable; [exact HD|via HS]|auto].
Qed.

Lemma runs_store_fields : forall l fs fs' H R, Forall2 (is_field H) l fs -> Forall2 alike fs fs' -> in_use H (flat_map owned l ++ R) ->
  runs H R (m_store_fields l fs') (Ret tt) (fun _ l' H' T => T = flat_map owned l' /\ Forall2 (is_field H') l' fs').
Proof.
  induction l as [|c l IH]; intros fs fs' H R HF HA HU.
  - inversion HF; subst. inversion HA; subst. cbn [m_store_fields]. eapply runs_ret with (T := []); [exact HU|]. split; auto.
  - inversion HF as [|c0 f0 l0 fs0 HC HL]; subst. inversion HA as [|f1 f1' fs1 fs1' HA1 HA2]; subst. cbn [m_store_fields].
    cbn [flat_map] in HU.
    eapply runs_then; [apply runs_frame with (S := flat_map owned l); eapply runs_store_field; [exact HC|exact HA1|eapply in_use_perm; [exact HU|perm]]|].
    intros c' G1 T1 HU1 HT1 (T' & -> & (-> & HC') & HS).
    eapply runs_then; [apply runs_frame with (S := owned c'); eapply IH; [eapply fields_stable; [exact HL|via HS]|exact HA2|eapply in_use_perm; [exact HU1|perm]]|].
    intros l' G2 T2 HU2 HT2 (T' & -> & (-> & HL') & HS2).
    eapply runs_ret with (T := flat_map owned (c' :: l')); [eapply in_use_perm; [exact HU2|perm]|]. split; auto. constructor; auto. eapply is_field_stable; [exact HC'|exact HS2].
Qed.

Lemma runs_store_hdr : forall H R a h h' S, is_hdr false H a h S -> alike_h h h' -> in_use H (S ++ R) ->
  runs H R (m_store_hdr a h') (Ret tt) (fun _ _ H' T => is_hdr false H' a h' T).
Proof.
  intros H R a h h' S (m & HA & E1 & E2 & E3 & E4 & E5 & HF) (A1 & A2 & A3 & A4) HU. unfold m_store_hdr.
  eapply runs_step; [eapply read_hdr_eq; eauto|]. destruct (mh_fields m) as [fa|] eqn:EF.
  - destruct HF as (l & HN & HL & HF & ->).
    assert (HR : runs H R (l0 <~ read_fields fa;; l' <~ m_store_fields l0 (h_fields h');; write fa (BFields l')) (Ret tt)
      (fun _ _ H' T => exists l', T = a :: fa :: flat_map owned l' /\ l' <> [] /\ holds H' a false (BHdr m) /\ holds H' fa false (BFields l') /\ Forall2 (is_field H') l' (h_fields h'))).
    { eapply runs_step; [eapply read_fields_eq; eauto|].
      eapply runs_then; [apply runs_frame with (S := [a; fa]); eapply runs_store_fields; [exact HF|exact A4|eapply in_use_perm; [exact HU|perm]]|].
      intros l' G1 T1 HU1 HT1 (T' & -> & (-> & HL') & HS).
      eapply runs_reorder; [eapply runs_write; [exact HU1|rewrite in_app_iff; right; right; left; auto|eapply holds_untouched; [exact HS|right; left; auto|eauto]]|].
      intros [] [] G2 T2 HU2 HT2 (-> & HA2 & HO). exists (a :: fa :: flat_map owned l'). split; [perm|]. exists l'. split; auto.
      assert (HND : NoDup (flat_map owned l' ++ [a; fa])) by (destruct HU1 as [HND _]; apply NoDup_app_iff in HND; tauto).
      apply NoDup_app_iff in HND. destruct HND as (_ & HND & HX). apply NoDup_cons_iff in HND. destruct HND as [HNI _].
      split; [intros ->; inversion HL'; inversion HF; subst; [congruence|inversion A4; congruence]|].
      split; [|split; [auto|]].
      - unfold holds. rewrite HO by (intros ->; apply HNI; left; auto). eapply holds_untouched; [exact HS|left; auto|auto].
      - eapply fields_stable; [exact HL'|]. intros x HI. apply HO. intros ->. eapply HX; [exact HI|right; left; auto]. }
    eapply runs_then; [exact HR|]. intros [] G T HG HT (l' & -> & HN' & HA' & HL' & HF').
    eapply runs_mono; [eapply runs_write; [exact HG|left; auto|exact HA']|].
    intros [] [] G2 T2 HU2 HT2 (-> & HA2 & HO).
    assert (HND : NoDup (a :: fa :: flat_map owned l')) by (destruct HG as [HND _]; apply NoDup_app_iff in HND; tauto).
    apply NoDup_cons_iff in HND. destruct HND as [HNI _].
    eexists. split; [exact HA2|]. cbn [mh_name mh_type mh_size mh_fill mh_parser mh_fields].
    split; [congruence|]. repeat (split; [solve [auto|congruence]|]). exists l'. split; auto.
    split; [unfold holds; rewrite HO; [auto|intros ->; apply HNI; left; auto]|]. split; auto.
    eapply fields_stable; [exact HF'|]. intros x HI. apply HO. intros ->. apply HNI. right. auto.
  - destruct HF as [EN ->]. eapply runs_step; [reflexivity|].
    eapply runs_mono; [eapply runs_write; [exact HU|left; auto|exact HA]|].
    intros [] [] G2 T2 HU2 HT2 (-> & HA2 & HO). eexists. split; [exact HA2|]. cbn [mh_name mh_type mh_size mh_fill mh_parser mh_fields].
    split; [congruence|]. repeat (split; [solve [auto|congruence]|]). split; auto. rewrite EN in A4. inversion A4. auto.
Qed.

Lemma runs_store_stack : forall l hs hs' H R S, are_hdrs false H l hs S -> Forall2 alike_h hs hs' -> in_use H (S ++ R) ->
  runs H R (m_store_stack l hs') (Ret tt) (fun _ _ H' T => are_hdrs false H' l hs' T).
Proof.
  induction l as [|a l IH]; intros hs hs' H R S HA HF HU; inversion HA as [|a0 h0 S1 l0 hs0 S2 HH HL]; subst.
  - inversion HF; subst. cbn [m_store_stack]. eapply runs_ret with (T := []); [exact HU|]. constructor.
  - inversion HF as [|h1 h1' hs1 hs1' HF1 HF2]; subst. cbn [m_store_stack].
    eapply runs_then; [apply runs_frame with (S := S2); eapply runs_store_hdr; [exact HH|exact HF1|eapply in_use_perm; [exact HU|perm]]|].
    intros [] G1 T1 HU1 HT1 (T' & -> & HH' & HS).
    eapply runs_reorder; [apply runs_frame with (S := T'); eapply IH; [eapply are_hdrs_stable; [exact HL|exact HS]|exact HF2|eapply in_use_perm; [exact HU1|perm]]|].
    intros [] [] G2 T2 HU2 HT2 (T'' & -> & HL' & HS2). exists (T' ++ T''). split; [perm|]. constructor; auto. eapply is_hdr_stable; eauto.
Qed.

(** ** The value functions keep names and defaults *)

Lemma alike_fmod : forall n g h, (forall f, alike f (g f)) -> alike_h h (fmod n g h).
Proof.
  intros n g h HG. unfold alike_h, fmod, set_fields. cbn [h_name h_fill h_parser h_fields]. repeat (split; [reflexivity|]).
  induction (h_fields h) as [|f fs IH]; cbn [mod_first]; [constructor|]. destruct (String.eqb n (f_name f)); constructor; auto using alikes_refl, alike_refl.
Qed.

Lemma alike_size : forall h k, alike_h h (set_size k h).
Proof. intros. unfold alike_h, set_size. cbn. repeat (split; [reflexivity|]). apply alikes_refl. Qed.
Lemma alike_type : forall h k, alike_h h (set_type k h).
Proof. intros. unfold alike_h, set_type. cbn. repeat (split; [reflexivity|]). apply alikes_refl. Qed.

Lemma alike_fields : forall h fs, Forall2 alike (h_fields h) fs -> alike_h h (set_fields fs h).
Proof. intros. unfold alike_h, set_fields. cbn. repeat (split; [reflexivity|]). auto. Qed.

Lemma alike_mod_nth : forall n g fs, (forall f, alike f (g f)) -> Forall2 alike fs (mod_nth n g fs).
Proof.
  intros n g fs HG. unfold mod_nth. destruct (nth_error fs n) as [f|] eqn:E; [|apply alikes_refl].
  revert n E. induction fs as [|x fs IH]; intros [|n] E; cbn in *; try discriminate.
  - injection E as ->. constructor; auto. apply alikes_refl.
  - constructor; [apply alike_refl|auto].
Qed.

Lemma alike_relayout : forall fs o, Forall2 alike fs (fst (relayout fs o)).
Proof.
  induction fs as [|f fs IH]; intros o; cbn [relayout]; [constructor|]. specialize (IH (o + f_width f)). destruct (relayout fs (o + f_width f)). cbn [fst] in *. constructor; auto. unfold alike. auto.
Qed.

Lemma alike_resize : forall n w h, alike_h h (resize_field n w h).
Proof.
  intros n w h. unfold resize_field.
  pose proof (alike_relayout (mod_nth n (set_width w) (h_fields h)) 0) as HA. destruct (relayout _ 0) as [fs o]. cbn [fst] in HA.
  eapply alike_h_trans; [|apply alike_size]. apply alike_fields. eapply alikes_trans; [|exact HA]. apply alike_mod_nth. unfold alike. auto.
Qed.

Lemma alike_parser : forall p h s k h' o, run_parser p h s k = Ret (h', o) -> alike_h h h'.
Proof.
  intros p h s k h' o E.
  assert (HS : forall (x : out (option buf)), (y <- x;; Ret (h, y)) = Ret (h', o) -> alike_h h h').
  { intros x Ex. bs Ex. apply ret_inj, pair_inj in Ex. destruct Ex as [<- _]. apply alike_h_refl. }
  destruct p; cbn [run_parser] in E; eauto.
  - apply ret_inj, pair_inj in E. destruct E as [<- _]. apply alike_h_refl.
  - unfold coap_parse_token in E. bs E. destruct a as [b|]; [|apply ret_inj, pair_inj in E; destruct E as [<- _]; apply alike_h_refl].
    destruct ((8 <? zlen b) || (zlen b =? 0)); apply ret_inj, pair_inj in E; destruct E as [<- _]; [apply alike_h_refl|apply alike_resize].
  - unfold profinet_data_parser in E. bs E. destruct a as [b|]; [|apply ret_inj, pair_inj in E; destruct E as [<- _]; apply alike_h_refl].
    destruct (size_limit <? zlen b); [discriminate|]. apply ret_inj, pair_inj in E; destruct E as [<- _]. apply alike_resize.
Qed.

Lemma alike_multi_var : forall h n ws h' r, field_parse_multi_var_byte h n ws = Ret (h', r) -> alike_h h h'.
Proof.
  intros h n ws h' r E. unfold field_parse_multi_var_byte in E. bs E. destruct a as [res b]. destruct (_ && _).
  - destruct b as [b|]; [|discriminate]. destruct (size_limit <? _); [discriminate|]. apply ret_inj, pair_inj in E. destruct E as [<- _].
    eapply alike_h_trans; [|apply alike_size]. apply alike_fmod. unfold alike. auto.
  - apply ret_inj, pair_inj in E. destruct E as [<- _]. apply alike_h_refl.
Qed.

Lemma alike_multi : forall p h n ws h' r, run_multi p h n ws = Ret (h', r) -> alike_h h h'.
Proof.
  intros p h n ws h' r E. destruct p; cbn [run_multi] in E; try discriminate.
  - unfold coap_parse_option_value in E. bs E. destruct a as [h1 res]. pose proof (alike_multi_var _ _ _ _ _ E0) as HA.
    destruct (_ && _); [|apply ret_inj, pair_inj in E; destruct E as [<- _]; auto].
    bs E. destruct (f_val a) as [v|]; [|discriminate]. destruct (forallb _ v); apply ret_inj, pair_inj in E; destruct E as [<- _]; auto.
    eapply alike_h_trans; [exact HA|]. eapply alike_h_trans; [|apply alike_size]. apply alike_fmod. unfold alike. auto.
  - unfold coap_parse_parms in E. bs E. destruct a as [res [b|]]; [|discriminate]. destruct (_ && _).
    + destruct (size_limit <? zlen b); [discriminate|]. apply ret_inj, pair_inj in E. destruct E as [<- _].
      eapply alike_h_trans; [|apply alike_size]. apply alike_fmod. unfold alike. auto.
    + apply ret_inj, pair_inj in E. destruct E as [<- _]. apply alike_h_refl.
Qed.

Lemma alike_parse_hdr : forall ws h pad mask n h' pad' mask', h_parser h <> HP_fields ->
  parse_hdr ws h pad mask = Ret (POk n h' pad' mask') -> alike_h h h'.
Proof.
  intros ws h pad mask n h' pad' mask' HN E. unfold parse_hdr in E. destruct (h_parser h); try congruence; try discriminate.
  - unfold payload_parser in E. bs E. destruct a as [res b]. destruct (res <? 0); [discriminate|]. destruct (res =? 0).
    + injection E as _ <- _ _. apply alike_h_refl.
    + destruct b as [b|]; [|discriminate]. destruct (size_limit <? zlen b); [discriminate|]. injection E as _ <- _ _.
      eapply alike_h_trans; [|apply alike_size]. apply alike_fields. apply alike_mod_nth. unfold alike. auto.
  - unfold padding_parser in E. destruct ws; [discriminate|]. bs E. destruct a; [|discriminate]. injection E as _ <- _ _. apply alike_h_refl.
Qed.

(** Filling *)

Lemma alike_fset : forall n g h h', (forall f, alike f (g f)) -> fset n g h = Ret h' -> alike_h h h'.
Proof. intros n g h h' HG E. unfold fset in E. bs E. apply ret_inj in E. subst h'. apply alike_fmod. auto. Qed.

Lemma alike_put_text : forall n t k h h', put_text n t k h = Ret h' -> alike_h h h'.
Proof. intros n t k h h' E. unfold put_text in E. bs E. eapply alike_fset; [|exact E]. unfold alike. auto. Qed.

Lemma alike_zero_widths : forall ns h h', zero_widths ns h = Ret h' -> alike_h h h'.
Proof.
  induction ns as [|n ns IH]; intros h h' E; cbn [zero_widths] in E.
  - apply ret_inj in E. subst. apply alike_h_refl.
  - bs E. eapply alike_h_trans; [|eauto]. eapply alike_fset; [|exact E0]. unfold alike. auto.
Qed.

Lemma alike_group : forall k ns h h', group_layout k ns h = Ret h' -> alike_h h h'.
Proof.
  intros k ns h h' E. unfold group_layout in E. binv E. binv E.
  assert (HA : alike_h h a0).
  { destruct a; [apply ret_inj in E1; subst; apply alike_h_refl|]. eapply alike_h_trans; [apply alike_size|]. eapply alike_zero_widths; exact E1. }
  binv E. destruct a1.
  - bs E. eapply alike_h_trans; [exact HA|]. eapply alike_h_trans; [apply alike_size|]. eapply alike_h_trans; [eapply alike_zero_widths; exact E3|].
    eapply alike_h_trans; [eapply alike_fset; [|exact E4]|eapply alike_fset; [|exact E]]; unfold alike; auto.
  - eapply alike_h_trans; [exact HA|]. eapply alike_h_trans; [apply alike_size|]. eapply alike_zero_widths; exact E.
Qed.

Lemma alike_stack_refl : forall l, Forall2 alike_h l l.
Proof. induction l; constructor; auto. apply alike_h_refl. Qed.

Lemma alike_upd : forall stk i h h', nth_error stk i = Some h -> alike_h h h' -> Forall2 alike_h stk (upd stk i h').
Proof.
  induction stk as [|x stk IH]; intros [|i] h h' E HA; cbn in *; try discriminate.
  - injection E as ->. constructor; auto. apply alike_stack_refl.
  - constructor; [apply alike_h_refl|]. eauto.
Qed.

Lemma hget_nth : forall stk i h, hget stk i = Ret h -> nth_error stk i = Some h.
Proof. intros stk i h E. unfold hget in E. destruct (nth_error stk i); congruence. Qed.

Lemma alike_run_fill : forall k stk i stk', run_fill k stk i = Ret stk' -> Forall2 alike_h stk stk'.
Proof.
  intros k stk i stk' E. destruct k; cbn [run_fill] in E.
  - apply ret_inj in E. subst. apply alike_stack_refl.
  - unfold ether_type_fill_defaults in E. binv E. apply hget_nth in E0. binv E. destruct (f_val a0); [apply ret_inj in E; subst; apply alike_stack_refl|].
    destruct (nth_error stk (S i)); [|apply ret_inj in E; subst; apply alike_stack_refl]. bs E. apply ret_inj in E; subst. eapply alike_upd; [eauto|]. eapply alike_put_text; eauto.
  - unfold ipv4_fill_defaults in E. binv E. apply hget_nth in E0. binv E.
    assert (HA : alike_h a a0). { unfold fill_proto in E1. bs E1. destruct (f_val a1); [apply ret_inj in E1; subst; apply alike_h_refl|eapply alike_put_text; eauto]. }
    binv E. binv E.
    assert (HB : alike_h a a2). { eapply alike_h_trans; [exact HA|]. destruct (f_val a1); [apply ret_inj in E3; subst; apply alike_h_refl|]. bs E3. eapply alike_put_text; eauto. }
    binv E. binv E. apply ret_inj in E. subst stk'. eapply alike_upd; [eauto|]. eapply alike_h_trans; [exact HB|].
    destruct (f_val a3); [apply ret_inj in E5; subst; apply alike_h_refl|]. bs E5. eapply alike_put_text; eauto.
  - unfold ipv6_fill_defaults in E. binv E. apply hget_nth in E0. binv E.
    assert (HA : alike_h a a0). { unfold fill_proto in E1. bs E1. destruct (f_val a1); [apply ret_inj in E1; subst; apply alike_h_refl|eapply alike_put_text; eauto]. }
    binv E. binv E. apply ret_inj in E. subst stk'. eapply alike_upd; [eauto|]. eapply alike_h_trans; [exact HA|].
    destruct (f_val a1); [apply ret_inj in E3; subst; apply alike_h_refl|]. bs E3. eapply alike_put_text; eauto.
  - unfold icmp_fill_defaults in E. binv E. apply hget_nth in E0. binv E. binv E. destruct (f_val a1); [apply ret_inj in E; subst; apply alike_stack_refl|].
    binv E. destruct a2 as [h2 ps]. bs E. apply ret_inj in E. subst stk'. eapply alike_upd; [eauto|]. eapply alike_h_trans; [|eapply alike_put_text; eauto].
    destruct i as [|j]; [apply ret_inj, pair_inj in E3; destruct E3 as [<- _]; apply alike_h_refl|].
    bs E3. destruct (String.eqb _ _); bs E3; apply ret_inj, pair_inj in E3; destruct E3 as [<- _]; [apply alike_type|apply alike_h_refl].
  - unfold igmp_fill_defaults in E. binv E. apply hget_nth in E0. binv E. binv E. apply alike_group in E2.
    destruct (f_val a0); bs E; apply ret_inj in E; subst stk'; (eapply alike_upd; [eauto|]); auto.
    eapply alike_h_trans; [exact E2|]. eapply alike_put_text; eauto.
  - unfold mld_fill_defaults in E. binv E. apply hget_nth in E0. binv E. binv E. apply alike_group in E2.
    destruct (f_val a0); [apply ret_inj in E; subst stk'; eapply alike_upd; eauto|].
    destruct (find_ipv6 stk i) as [ip|]; [|discriminate]. destruct (find_field ip "sip") as [sf|]; [|discriminate]. destruct (find_field ip "dip") as [df|]; [|discriminate].
    destruct (f_val sf) as [sip|]; [|discriminate]. destruct (f_val df) as [dip|]; [|discriminate]. destruct (_ && _); [|discriminate].
    bs E. apply ret_inj in E. subst stk'. eapply alike_upd; [eauto|]. eapply alike_h_trans; [exact E2|]. eapply alike_put_text; eauto.
  - unfold udp_tcp_fill_defaults in E. binv E. apply hget_nth in E0. binv E. binv E.
    assert (HA : alike_h a a1). { destruct (find_field a "len") as [l|]; [|apply ret_inj in E2; subst; apply alike_h_refl]. destruct (f_val l); [apply ret_inj in E2; subst; apply alike_h_refl|]. eapply alike_put_text; eauto. }
    binv E. destruct (f_val a2); [apply ret_inj in E; subst; eapply alike_upd; eauto|].
    destruct i as [|j]; [apply ret_inj in E; subst; eapply alike_upd; eauto|]. binv E.
    destruct (if String.eqb (h_name a3) "ipv4" then _ else _); [|apply ret_inj in E; subst; eapply alike_upd; eauto].
    bs E. apply ret_inj in E. subst stk'. eapply alike_upd; [eauto|]. eapply alike_h_trans; [exact HA|]. eapply alike_put_text; eauto.
  - unfold ptp_fill in E. binv E. apply hget_nth in E0. destruct (find_field a _) as [l|]; [|apply ret_inj in E; subst; apply alike_stack_refl].
    destruct (f_val l); [apply ret_inj in E; subst; apply alike_stack_refl|]. bs E. apply ret_inj in E. subst. eapply alike_upd; [eauto|]. eapply alike_put_text; eauto.
  - unfold ptp_fill in E. binv E. apply hget_nth in E0. destruct (find_field a _) as [l|]; [|apply ret_inj in E; subst; apply alike_stack_refl].
    destruct (f_val l); [apply ret_inj in E; subst; apply alike_stack_refl|]. bs E. apply ret_inj in E. subst. eapply alike_upd; [eauto|]. eapply alike_put_text; eauto.
  - unfold coap_fill_defaults in E. binv E. apply hget_nth in E0. binv E. binv E.
    destruct (f_val a0); [apply ret_inj in E; subst; apply alike_stack_refl|]. destruct (f_val a1); [|apply ret_inj in E; subst; apply alike_stack_refl].
    destruct (nth_error (h_fields a) 5); [|discriminate]. bs E. apply ret_inj in E. subst. eapply alike_upd; [eauto|]. eapply alike_put_text; eauto.
  - unfold options_fill_defaults in E. binv E. apply hget_nth in E0. binv E. binv E.
    destruct (f_val a0) as [num|]; [|apply ret_inj in E; subst; apply alike_stack_refl]. destruct (f_val a1) as [v|]; [|apply ret_inj in E; subst; apply alike_stack_refl].
    binv E. binv E. destruct (opt_split (u16 (a2 * 256 + a3))) as [dn de]. destruct (opt_split (u16 (zlen v))) as [ln le].
    bs E. apply ret_inj in E. subst. eapply alike_upd; [eauto|]. eapply alike_h_trans; [eapply alike_fset; [|eauto]; unfold alike; auto|]. apply alike_resize.
  - unfold sv_fill_defaults in E. binv E. apply hget_nth in E0. binv E. destruct a0; [apply ret_inj in E; subst; apply alike_stack_refl|].
    bs E. apply ret_inj in E. subst. eapply alike_upd; [eauto|]. eapply alike_h_trans; [apply alike_size|]. eapply alike_zero_widths; eauto.
Qed.

Lemma alike_stack_trans : forall a b c, Forall2 alike_h a b -> Forall2 alike_h b c -> Forall2 alike_h a c.
Proof. intros a b c HA. revert c. induction HA; intros c HB; inversion HB; subst; constructor; eauto using alike_h_trans. Qed.

Lemma alike_fill_all : forall n stk stk', fill_all n stk = Ret stk' -> Forall2 alike_h stk stk'.
Proof.
  induction n as [|n IH]; intros stk stk' E; cbn [fill_all] in E; [apply ret_inj in E; subst; apply alike_stack_refl|].
  binv E. binv E. eapply alike_stack_trans; [eapply alike_run_fill; eauto|eauto].
Qed.

Lemma alike_frame_to_buf : forall f f' b, frame_to_buf f = Ret (f', b) ->
  Forall2 alike_h (fr_stack f) (fr_stack f') /\ fr_padding f' = fr_padding f /\ fr_has_mask f' = fr_has_mask f.
Proof.
  intros f f' b E. unfold frame_to_buf in E. bs E. apply ret_inj, pair_inj in E. destruct E as [<- _]. cbn. split; auto. eapply alike_fill_all; eauto.
Qed.

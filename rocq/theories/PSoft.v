(** Filling and serialising parsed headers: no undefined behaviour, and the
    filled headers are still laid out properly. *)

From Verif Require Import PTextIp Frame PSer SpecParse PParse PMatch SpecFrame PFrame PInv PStep PArgs.

(** Ends of a run that are not undefined behaviour; failed assertions only if [a]. *)
Definition soft (a : bool) (c : crash) : Prop := (c = Assert_fail /\ a = true) \/ c = Exit_call \/ c = Out_of_model.

Definition okp {A} (a : bool) (P : A -> Prop) (x : out A) : Prop :=
  match x with Ret r => P r | Crash c => soft a c end.

Lemma okp_bind : forall a A B (P : A -> Prop) (Q : B -> Prop) x (f : A -> out B),
  okp a P x -> (forall r, P r -> okp a Q (f r)) -> okp a Q (bind x f).
Proof. intros a A B P Q [r|c] f Hx Hf; cbn in *; auto. Qed.

Lemma okp_impl : forall a A (P Q : A -> Prop) x, okp a P x -> (forall r, P r -> Q r) -> okp a Q x.
Proof. intros a A P Q [r|c] H Hi; cbn in *; auto. Qed.

(** *** Writing bits *)
Definition same_len (b b' : buf) : Prop := length b' = length b.

Lemma bit_get_soft : forall v p, 0 <= p -> okp true (fun _ => True) (bit_get v p).
Proof.
  intros v p Hp. unfold bit_get. destruct (Z.ltb_spec (p / 8) (zlen v)); [|left; auto].
  rewrite bget_ok by lia. exact Logic.I.
Qed.

Lemma bit_set_soft : forall b p x, 0 <= p -> okp true (same_len b) (bit_set b p x).
Proof.
  intros b p x Hp. unfold bit_set. destruct (Z.ltb_spec (p / 8) (zlen b)); [|left; auto].
  rewrite bget_ok by lia. cbn [bind]. rewrite bput_ok by lia. cbn. unfold same_len. apply upd_length.
Qed.

Lemma write_bits_soft : forall n pos b base v first, 0 <= pos -> 0 <= base ->
  okp true (same_len b) (write_bits n pos b base v first).
Proof.
  induction n as [|n IH]; intros pos b base v first Hp Hb; cbn [write_bits]; [reflexivity|].
  eapply okp_bind; [apply bit_get_soft; unfold u64; lia|]. intros x _.
  eapply okp_bind; [apply bit_set_soft; lia|]. intros b1 H1.
  eapply okp_impl; [apply IH; lia|]. intros b2 H2. unfold same_len in *. congruence.
Qed.

Definition soff (h : hdr) : Prop := 0 <= h_size h /\ Forall (fun f => 0 <= f_off f) (h_fields h).

Lemma copy_fields_soft : forall fs o b mask, 0 <= o -> Forall (fun f => 0 <= f_off f) fs ->
  okp true (same_len b) (copy_fields fs o b mask).
Proof.
  induction fs as [|f fs IH]; intros o b mask Ho HF; cbn [copy_fields]; [reflexivity|].
  destruct (zlen b <? _); [reflexivity|]. pose proof (Forall_inv HF) as H0. apply Forall_inv_tail in HF. cbv beta in H0.
  eapply okp_bind with (P := same_len b).
  - destruct (field_source mask f) as [v|]; [|reflexivity]. unfold hdr_write_field.
    destruct (8 * zlen b <? _); [left; auto|]. apply write_bits_soft; lia.
  - intros b1 H1. eapply okp_impl; [apply IH; auto|]. intros b2 H2. unfold same_len in *. congruence.
Qed.

Lemma copy_stack_soft : forall hs o b mask, 0 <= o -> Forall soff hs -> okp true (same_len b) (copy_stack hs o b mask).
Proof.
  induction hs as [|h r IH]; intros o b mask Ho HF; cbn [copy_stack]; [reflexivity|].
  pose proof (Forall_inv HF) as [H0 H1]. apply Forall_inv_tail in HF.
  eapply okp_bind; [apply copy_fields_soft; auto|]. intros b1 Hb1.
  eapply okp_impl; [apply IH; auto; lia|]. intros b2 H2. unfold same_len in *. congruence.
Qed.

(** Headers that can be written: without failed assertions unless [a]. *)
Definition good (a : bool) (h : hdr) : Prop := soff h /\ (a = false -> wf_hdr false h).

Lemma good_soff : forall a hs, Forall (good a) hs -> Forall soff hs.
Proof. intros a hs H. eapply Forall_impl; [|exact H]. intros h [H1 _]. auto. Qed.

Lemma good_wf : forall hs, Forall (good false) hs -> Forall (wf_hdr false) hs.
Proof. intros hs H. eapply Forall_impl; [|exact H]. intros h [_ H1]. auto. Qed.

Lemma good_sizes : forall a hs, Forall (good a) hs -> 0 <= stack_size hs.
Proof. intros a hs H. apply stack_size_nonneg. eapply Forall_impl; [|exact H]. intros h [[H1 _] _]. auto. Qed.

Lemma len_from_soft : forall a stk i, Forall (good a) (skipn i stk) ->
  okp a (fun n => 0 <= n <= size_limit /\ n = stack_size (skipn i stk)) (len_from stk i).
Proof.
  intros a stk i H. apply good_sizes in H. unfold len_from. destruct (Z.ltb_spec size_limit (stack_size (skipn i stk))).
  - right; right; auto.
  - cbn. auto.
Qed.

Lemma copy_stack_good : forall a hs o b, 0 <= o -> bytes_ok b -> o + stack_size hs <= zlen b -> Forall (good a) hs ->
  okp a (same_len b) (copy_stack hs o b false).
Proof.
  intros [] hs o b Ho Hb Hl HF; [apply copy_stack_soft; auto; eapply good_soff; eauto|].
  destruct (copy_stack_safe hs o b false Hb Ho Hl (good_wf _ HF)) as [b' E]. rewrite E. cbn.
  unfold same_len. eapply copy_stack_len; eauto.
Qed.

Lemma copy_hdr_good : forall a h o b, 0 <= o -> bytes_ok b -> o + h_size h <= zlen b -> good a h ->
  okp a (fun b' => same_len b b' /\ bytes_ok b') (hdr_copy_to_buf h o b).
Proof.
  intros a h o b Ho Hb Hl [[S1 S2] W]. unfold hdr_copy_to_buf, hdr_copy_to_buf_.
  assert (H : okp a (fun _ => True) (copy_fields (h_fields h) o b false)).
  { destruct a.
    - eapply okp_impl; [apply copy_fields_soft; auto|]. auto.
    - destruct (W eq_refl) as [W1 W2].
      destruct (copy_fields_spec (h_fields h) o b false (h_size h) Hb Ho Hl W1 W2) as [b' [E _]]. rewrite E. exact Logic.I. }
  destruct (copy_fields (h_fields h) o b false) as [b'|c] eqn:E; [|exact H].
  split; [eapply copy_fields_len; eauto|eapply copy_fields_ok; eauto].
Qed.

Lemma serialize_soft : forall a ps stk i, Forall (good a) (skipn i stk) ->
  (forall ph, ps = Some ph -> good a ph) -> okp a (fun _ => True) (serialize_from ps stk i).
Proof.
  intros a ps stk i H Hp. unfold serialize_from. eapply okp_bind; [apply len_from_soft; auto|]. intros n [Hn En].
  destruct ps as [ph|].
  - pose proof (Hp ph eq_refl) as Hph. pose proof (proj1 (proj1 Hph)) as Hz.
    eapply okp_bind; [apply copy_hdr_good; auto; [lia|apply balloc_bytes|rewrite zlen_balloc; lia]|]. intros b [Hb Hb'].
    eapply okp_impl; [apply copy_stack_good; auto|auto]. unfold same_len in Hb. unfold zlen. rewrite Hb.
    fold (zlen (balloc (n + h_size ph))). rewrite zlen_balloc by lia. lia.
  - eapply okp_impl; [apply copy_stack_good; auto; [lia|apply balloc_bytes|rewrite zlen_balloc; lia]|auto].
Qed.

(** *** Parsed headers are laid out properly *)
Lemma seq_within : forall fs p f, seqok (map lay fs) p -> In f fs ->
  p <= f_off f /\ 0 <= f_width f /\ f_off f + f_width f <= p + sumw fs.
Proof.
  induction fs as [|x r IH]; intros p f H Hin; [destruct Hin|]. cbn [map seqok lay] in H. destruct H as [H1 [H2 H3]].
  pose proof (seqok_widths _ _ H3) as HW.
  assert (Hr : 0 <= sumw r).
  { clear - HW. induction HW as [|y l Hy Hl IHl]; [reflexivity|]. unfold sumw in *. cbn [fold_right]. lia. }
  unfold sumw in *. cbn [fold_right].
  destruct Hin as [->|Hin]; [lia|]. specialize (IH _ _ H3 Hin). unfold sumw in IH. lia.
Qed.

Lemma lay_in : forall fs fs' f, map lay fs = map lay fs' -> In f fs -> exists f', In f' fs' /\ lay f = lay f'.
Proof.
  intros fs fs' f H Hin. apply (in_map lay) in Hin. rewrite H in Hin. apply in_map_iff in Hin.
  destruct Hin as [f' [H1 H2]]. exists f'. auto.
Qed.

Lemma inv_within : forall t h f, In t hdr_tmpls -> inv t h -> In f (h_fields h) -> within h f.
Proof.
  intros t h f Ht I Hin. unfold within. destruct (varhdr t) eqn:Ev.
  - destruct (i_var _ _ I Ev) as [J1 [J2 _]]. destruct (seq_within _ _ _ J1 Hin) as [H1 [H2 H3]]. lia.
  - destruct (i_fix _ _ I Ev) as [J1 J2]. destruct (lay_in _ _ _ J1 Hin) as [f' [Hin' Hl]].
    assert (H : layoutb t = true).
    { pose proof templates_layout as HT. rewrite forallb_forall in HT. auto. }
    apply layoutb_sound in H. unfold lay in Hl. assert (f_off f = f_off f') by congruence. assert (f_width f = f_width f') by congruence.
    rewrite J2, H0, H1. destruct H as [e [_ [_ [_ K]]]]. apply (K f' Hin').
Qed.

Lemma inv_wf : forall t h, In t hdr_tmpls -> inv t h -> wf_hdr false h.
Proof.
  intros t h Ht I. split; [apply (i_size _ _ I)|]. apply Forall_forall. intros f Hin.
  destruct (inv_within _ _ _ Ht I Hin) as [H1 [H2 H3]]. split; [lia|]. intros v Hv.
  pose proof (i_val _ _ I) as J. rewrite Forall_forall in J. destruct (J f Hin v Hv) as [J1 [J2 J3]].
  repeat split; auto; try lia. apply small_lim. pose proof size_limit_val. lia.
Qed.

Lemma inv_soff : forall t h, In t hdr_tmpls -> inv t h -> soff h.
Proof.
  intros t h Ht I. split; [apply (i_size _ _ I)|]. apply Forall_forall. intros f Hin.
  destruct (inv_within _ _ _ Ht I Hin) as [H1 _]. auto.
Qed.

(** *** Looking up fields of parsed headers *)
Lemma inv_find : forall t h n ft, inv t h -> find_field t n = Some ft ->
  exists f, find_field h n = Some f /\ fsig t f = fsig t ft.
Proof.
  intros t h n ft I H. pose proof (sig_find t _ _ n (i_sig _ _ I)) as HS. unfold find_field in *. rewrite H in HS.
  destruct (find (fun x => String.eqb n (f_name x)) (h_fields h)) as [f|]; [|discriminate]. cbn in HS. exists f. split; congruence.
Qed.

Lemma inv_find_none : forall t h n, inv t h -> find_field t n = None -> find_field h n = None.
Proof.
  intros t h n I H. pose proof (sig_find t _ _ n (i_sig _ _ I)) as HS. unfold find_field in *. rewrite H in HS.
  destruct (find (fun x => String.eqb n (f_name x)) (h_fields h)); [discriminate|auto].
Qed.

(** The fields a filler looks up and how wide they are. *)
Definition req (k : filler) : list (string * Z) :=
  match k with
  | FL_none | FL_ptp | FL_ptp_tlv => []
  | FL_ether => [("et", 16)]
  | FL_ipv4 => [("proto", 8); ("len", 16); ("chksum", 16)]
  | FL_ipv6 => [("next", 8); ("len", 16)]
  | FL_icmp | FL_udp_tcp => [("chksum", 16)]
  | FL_igmp | FL_mld | FL_coap_opt | FL_sv => []
  | FL_coap => [("tkl", 4)]
  end.

Definition has_field (t : hdr) (n : string) (w : Z) : bool :=
  match find_field t n with
  | Some f => negb (isv t f) && (f_width f =? w)
  | None => false
  end.

Definition fill_chk (t : hdr) : bool :=
  forallb (fun p => has_field t (fst p) (snd p)) (req (h_fill t)) &&
  (if String.eqb (h_name t) "ipv4" || String.eqb (h_name t) "ipv6"
   then let w := if String.eqb (h_name t) "ipv4" then 32 else 128 in has_field t "sip" w && has_field t "dip" w else true) &&
  match h_fill t with FL_ipv4 => h_size t =? 20 | _ => true end &&
  match find_field t "len" with Some f => match h_fill t with FL_udp_tcp => has_field t "len" 16 | _ => true end | None => true end &&
  match h_fill t with FL_ptp => match find_field t "hdr-messageLength" with Some f => has_field t "hdr-messageLength" 16 | None => true end | _ => true end &&
  match h_fill t with FL_ptp_tlv => match find_field t "tlv-length" with Some f => has_field t "tlv-length" 16 | None => true end | _ => true end &&
  match h_fill t with FL_coap => is_some (find_field t "token") && (5 <? zlen (h_fields t)) | _ => true end &&
  (0 <=? h_type t) && (h_type t <? 65536).

Lemma templates_fill : forallb fill_chk hdr_tmpls = true.
Proof. vm_compute. reflexivity. Qed.

Lemma fill_checked : forall t, In t hdr_tmpls -> fill_chk t = true.
Proof. intros t H. pose proof templates_fill as HT. rewrite forallb_forall in HT. auto. Qed.

Lemma has_field_get : forall t h n w, inv t h -> has_field t n w = true ->
  exists f, find_field h n = Some f /\ fget h n = Ret f /\ f_width f = w /\ isv t f = false.
Proof.
  intros t h n w I H. unfold has_field in H. destruct (find_field t n) as [ft|] eqn:E; [|discriminate].
  apply andb_true_iff in H. destruct H as [H1 H2]. destruct (inv_find _ _ _ _ I E) as [f [Hf Hs]]. exists f.
  pose proof (fsig_isv _ _ _ Hs) as Hi. rewrite negb_true_iff in H1. unfold fsig in Hs. rewrite Hi, H1 in Hs.
  split; [auto|]. split; [unfold fget; rewrite Hf; auto|]. split; [|congruence]. assert (f_width f = f_width ft) by congruence. lia.
Qed.

Lemma req_get : forall t h n w, In t hdr_tmpls -> inv t h -> In (n, w) (req (h_fill t)) ->
  exists f, find_field h n = Some f /\ fget h n = Ret f /\ f_width f = w /\ isv t f = false.
Proof.
  intros t h n w Ht I Hin. pose proof (fill_checked t Ht) as H. unfold fill_chk in H. rewrite !andb_true_iff in H.
  destruct H as [[[[[[[[H _] _] _] _] _] _] _] _]. rewrite forallb_forall in H. apply (has_field_get t h n w I). exact (H _ Hin).
Qed.

(** Setting a fixed field to a value of the right size. *)
Lemma put_text_ok : forall t h n f txt k, In t hdr_tmpls -> inv t h -> find_field h n = Some f -> isv t f = false ->
  f_width f <= 8 * k -> 0 <= k <= 8 -> (f_width f mod 8 = 0 -> f_width f = 8 * k) ->
  exists o, parse_bytes txt k = Ret o /\ put_text n txt k h = Ret (fmod n (set_val o) h) /\ inv t (fmod n (set_val o) h).
Proof.
  intros t h n f txt k Ht I Hf Hv Hw Hk Hx. destruct (parse_bytes_safe8 txt k Hk) as [o Ho]. exists o. split; auto.
  unfold put_text, fset, fget. rewrite Ho. cbn [bind]. rewrite Hf. cbn [bind]. split; auto.
  apply (inv_set_val t h n f); auto.
  - intros v ->. destruct (parse_bytes_len txt k v (proj1 Hk) Ho) as [H1 H2]. rewrite H1. pose proof size_limit_val. split; [lia|]. split; [auto|]. split; [lia|]. split; [intros E; destruct (isv_not_var _ _ Hv E); auto|intros E; destruct (isv_not_tok _ _ Hv E)].
  - intros ->. eapply inv_clear; eauto.
Qed.

(** *** The shape of a parsed header with fixed fields *)
Lemma shape : forall t a b, map (fsig t) a = map (fsig t) b -> map lay a = map lay b ->
  Forall2 (fun f ft => f = MkField (f_name ft) (f_skip f) (f_width ft) (f_off ft) (f_def ft) (f_val f) (f_parser ft)) a b.
Proof.
  intros t. induction a as [|x a IH]; intros [|y b] H1 H2; try discriminate; [constructor|].
  cbn [map] in *. assert (E1 : fsig t x = fsig t y) by congruence. assert (E2 : lay x = lay y) by congruence.
  constructor; [|apply IH; congruence]. destruct x as [n s w o d v p]. unfold fsig, lay in *. cbn in *. congruence.
Qed.

Lemma inv_shape : forall t h, varhdr t = false -> inv t h ->
  h = MkHdr (h_name t) (h_type t) (h_size t) (h_fields h) (h_fill t) (h_parser t) /\
  Forall2 (fun f ft => f = MkField (f_name ft) (f_skip f) (f_width ft) (f_off ft) (f_def ft) (f_val f) (f_parser ft)) (h_fields h) (h_fields t).
Proof.
  intros t h Hv I. destruct (i_fix _ _ I Hv) as [H1 H2]. pose proof (i_name _ _ I). pose proof (i_type _ _ I).
  pose proof (i_fill _ _ I). pose proof (i_parser _ _ I). split; [|apply (shape t); auto; apply I].
  destruct h; cbn in *. congruence.
Qed.

Definition value_fill (k : filler) : bool :=
  match k with FL_igmp | FL_mld | FL_coap_opt | FL_sv => false | _ => true end.

Definition filled (t h h' : hdr) : Prop :=
  soff h' /\ h_name h' = h_name h /\ h_fill h' = h_fill h /\
  (value_fill (h_fill t) = true -> inv t (set_type (h_type t) h') /\ (h_fill t <> FL_icmp -> h_type h' = h_type h)) /\
  (regular h = true -> wf_hdr false h').

Lemma set_type_same : forall h x, h_type h = x -> set_type x h = h.
Proof. intros [] x H. cbn in H. subst. reflexivity. Qed.

Lemma filled_inv : forall t h h', In t hdr_tmpls -> inv t h -> inv t h' -> filled t h h'.
Proof.
  intros t h h' Ht I I'. split; [eapply inv_soff; eauto|]. split; [rewrite (i_name _ _ I), (i_name _ _ I'); auto|].
  split; [rewrite (i_fill _ _ I), (i_fill _ _ I'); auto|].
  split; [|intros _; eapply inv_wf; eauto]. intros _. split.
  - rewrite set_type_same; auto. apply (i_type _ _ I').
  - rewrite (i_type _ _ I), (i_type _ _ I'). auto.
Qed.

Lemma inv_set_type : forall t h x, inv t h -> inv t (set_type (h_type t) (set_type x h)).
Proof. intros t h x I. destruct I. constructor; cbn; auto. Qed.

Lemma filled_inv58 : forall t h h' x, In t hdr_tmpls -> h_fill t = FL_icmp -> inv t h -> inv t h' -> filled t h (set_type x h').
Proof.
  intros t h h' x Ht Hf I I'. pose proof (inv_soff _ _ Ht I') as [S1 S2]. split; [split; auto|].
  split; [cbn; rewrite (i_name _ _ I), (i_name _ _ I'); auto|]. split; [cbn; rewrite (i_fill _ _ I), (i_fill _ _ I'); auto|].
  split; [|intros _]. { intros _. split; [apply inv_set_type; auto|congruence]. }
  destruct (inv_wf _ _ Ht I') as [W1 W2]. split; auto.
Qed.

Lemma filled_refl : forall t h, In t hdr_tmpls -> inv t h -> filled t h h.
Proof. intros t h Ht I. apply filled_inv; auto. Qed.

(** *** Positions *)
Definition fills (a : bool) (t h : hdr) (stk : list hdr) (i : nat) (x : out (list hdr)) : Prop :=
  okp a (fun stk' => exists h', stk' = upd stk i h' /\ filled t h h') x.

Lemma fills_same : forall a t h stk i, In t hdr_tmpls -> inv t h -> nth_error stk i = Some h -> fills a t h stk i (Ret stk).
Proof. intros a t h stk i Ht I H. exists h. split; [rewrite upd_same; auto|apply filled_refl; auto]. Qed.

Lemma good_skipn : forall a stk i, Forall (good a) stk -> Forall (good a) (skipn i stk).
Proof.
  intros a stk i H. rewrite Forall_forall in *. intros x Hx. apply H. rewrite <- (firstn_skipn i stk). apply in_or_app. auto.
Qed.

Lemma inv_good : forall a t h, In t hdr_tmpls -> inv t h -> good a h.
Proof. intros a t h Ht I. split; [eapply inv_soff; eauto|intros _; eapply inv_wf; eauto]. Qed.

(** Which templates have a given filler. *)
Ltac which_tmpl Ht Hf :=
  unfold hdr_tmpls in Ht; cbn [In] in Ht;
  repeat match type of Ht with
         | _ \/ _ => destruct Ht as [Ht|Ht]; [try (rewrite <- Ht in Hf; discriminate Hf); try (symmetry; exact Ht)|]
         | False => destruct Ht
         end.

Lemma tmpl_ipv4 : forall t, In t hdr_tmpls -> h_fill t = FL_ipv4 -> t = HDR_IPV4.
Proof. intros t Ht Hf. which_tmpl Ht Hf. Qed.

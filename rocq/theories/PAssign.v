(** Assignments "name value" (C35, C54, C11). *)

From Verif Require Import PTextIp Frame PSer SpecParse PParse PInv PStep PArgs.

Lemma is_ign_iff : forall v, is_ign v = true <-> ignore_word v.
Proof.
  intros v. unfold is_ign, ignore_word. rewrite orb_true_iff. rewrite 2 String.eqb_eq. tauto.
Qed.

Lemma is_ign_false : forall v, ~ ignore_word v -> is_ign v = false.
Proof. intros v H. destruct (is_ign v) eqn:E; auto. apply is_ign_iff in E. contradiction. Qed.

Lemma bytes_of_width : forall w, 0 <= w -> BIT_TO_BYTE w = Z.max 1 ((w + 7) / 8).
Proof.
  intros w H. unfold BIT_TO_BYTE. destruct (Z.eq_dec w 0) as [->|Hn]; [reflexivity|].
  rewrite Z.quot_div_nonneg by lia. lia.
Qed.

Lemma find_first : forall fs j f n, nth_error fs j = Some f -> f_name f = n -> first_named fs j n ->
  find (fun x => String.eqb n (f_name x)) fs = Some f.
Proof.
  induction fs as [|x r IH]; intros j f n Hj Hn HF; [destruct j; discriminate|]. cbn [find]. destruct j as [|j].
  - cbn in Hj. apply some_inj in Hj. subst x. rewrite Hn, String.eqb_refl. auto.
  - assert (E : String.eqb n (f_name x) = false).
    { apply String.eqb_neq. intro E. apply (HF 0%nat x); [lia|reflexivity|auto]. }
    rewrite E. eapply IH; eauto. intros i g Hi Hg. apply (HF (S i) g); [lia|exact Hg].
Qed.

Lemma nth_mod_first : forall n g fs j f, nth_error fs j = Some f ->
  (f_name f = n -> first_named fs j n -> nth_error (mod_first n g fs) j = Some (g f)) /\
  ((f_name f <> n \/ ~ first_named fs j n) -> nth_error (mod_first n g fs) j = Some f).
Proof.
  intros n g. induction fs as [|x r IH]; intros j f Hj; [destruct j; discriminate|]. cbn [mod_first]. destruct j as [|j].
  - cbn in Hj. apply some_inj in Hj. subst x. destruct (String.eqb n (f_name f)) eqn:E.
    + apply String.eqb_eq in E. split; [auto|]. intros [H|H]; [congruence|]. exfalso. apply H. intros i y Hi. lia.
    + apply String.eqb_neq in E. split; [congruence|auto].
  - destruct (IH j f Hj) as [H1 H2]. destruct (String.eqb n (f_name x)) eqn:E.
    + apply String.eqb_eq in E. split; [|auto]. intros Hn HF. exfalso. apply (HF 0%nat x); [lia|reflexivity|auto].
    + apply String.eqb_neq in E. split.
      * intros Hn HF. apply H1; auto. intros i y Hi Hy. apply (HF (S i) y); [lia|auto].
      * intros [H|H]; [apply H2; auto|]. apply H2. right. intro HF. apply H. intros i y Hi Hy. destruct i as [|i].
        -- cbn in Hy. congruence.
        -- apply (HF i y); [lia|auto].
Qed.

(** What an assignment does to the field. *)
Definition text_val (f : field) (v : string) : option buf :=
  if is_ign v then None
  else match field_text (f_parser f) v (BIT_TO_BYTE (f_width f)) with Ret o => o | Crash _ => None end.

Definition assign1 (v : string) (f : field) : field := set_skip (is_ign v) (set_val (text_val f v) f).

Definition assign (h : hdr) (p : string * string) : hdr := fmod (fst p) (assign1 (snd p)) h.

Lemma assign1_place : forall v f, f_name (assign1 v f) = f_name f /\ f_off (assign1 v f) = f_off f /\
  f_width (assign1 v f) = f_width f /\ f_def (assign1 v f) = f_def f /\ f_parser (assign1 v f) = f_parser f.
Proof. intros. repeat split. Qed.

(** [h] is [t] but for values and skip flags. *)
Definition like (t h : hdr) : Prop :=
  h = set_fields (h_fields h) t /\
  Forall2 (fun f g => f_name g = f_name f /\ f_off g = f_off f /\ f_width g = f_width f /\ f_def g = f_def f /\ f_parser g = f_parser f)
    (h_fields t) (h_fields h).

Lemma like_refl : forall t, like t t.
Proof. intros t. split; [destruct t; auto|]. induction (h_fields t); constructor; auto. Qed.

Lemma like_assign : forall t h p, like t h -> like t (assign h p).
Proof.
  intros t h p [H1 H2]. unfold assign, fmod. split; [cbn; rewrite H1; reflexivity|]. cbn [set_fields h_fields].
  revert H2. generalize (h_fields t), (h_fields h). intros l l2 H2. induction H2 as [|f g l l2 Hfg H2 IH]; [constructor|].
  cbn [mod_first]. destruct (String.eqb (fst p) (f_name g)); constructor; auto.
Qed.

Lemma like_find : forall t h n f, like t h -> find_field t n = Some f ->
  exists g, find_field h n = Some g /\ f_parser g = f_parser f /\ f_width g = f_width f.
Proof.
  intros t h n f [_ H]. unfold find_field. revert H. generalize (h_fields t), (h_fields h). intros l l2 H.
  induction H as [|x y l l2 Hxy H IH]; intros Hf; [discriminate|]. cbn [find] in *. destruct Hxy as [E1 [E2 [E3 [E4 E5]]]]. rewrite E1.
  destruct (String.eqb n (f_name x)); [|auto]. apply some_inj in Hf. subst x. exists y. auto.
Qed.

Lemma like_find_none : forall t h n, like t h -> (forall f, In f (h_fields t) -> f_name f <> n) -> find_field h n = None.
Proof.
  intros t h n [_ H] HN. unfold find_field. revert H HN. generalize (h_fields t), (h_fields h). intros l l2 H.
  induction H as [|x y l l2 Hxy H IH]; intros HN; auto. cbn [find]. destruct Hxy as [E1 _]. rewrite E1.
  assert (E : String.eqb n (f_name x) = false) by (apply String.eqb_neq; intro E; apply (HN x); [left|]; auto).
  rewrite E. apply IH. intros f Hf. apply HN. right. auto.
Qed.

Lemma field_text_run : forall p h v k o, field_text p v k = Ret o -> is_multi p = false /\ run_parser p h v k = Ret (h, o).
Proof.
  intros p h v k o H. destruct p; try discriminate H; split; auto; cbn [field_text run_parser] in *; try (rewrite H; reflexivity).
  apply ret_inj in H. rewrite H. auto.
Qed.

Lemma fmod_assign : forall n v h f o, find_field h n = Some f -> is_ign v = false ->
  field_text (f_parser f) v (BIT_TO_BYTE (f_width f)) = Ret o ->
  fmod n (set_skip false) (fmod n (set_val o) (fmod n (set_val None) h)) = assign h (n, v).
Proof.
  intros n v h f o Hf Hi Ho. rewrite !fmod_comp by reflexivity. unfold assign, fmod. cbn [fst snd]. f_equal.
  apply find_split in Hf. destruct Hf as [A [B [_ [_ [H _]]]]]. rewrite !H. do 2 f_equal.
  unfold assign1, text_val. rewrite Hi, Ho. reflexivity.
Qed.

Lemma fmod_ignore : forall n v h, is_ign v = true ->
  fmod n (set_skip true) (fmod n (set_val None) h) = assign h (n, v).
Proof.
  intros n v h Hi. rewrite !fmod_comp by reflexivity. unfold assign, fmod. cbn [fst snd]. f_equal.
  generalize (h_fields h). intros l. induction l as [|x r IH]; auto. cbn [mod_first].
  destruct (String.eqb n (f_name x)); [|congruence]. unfold assign1, text_val. rewrite Hi. reflexivity.
Qed.

Lemma hpf_assign_go : forall asg t rest fuel i h pad mask,
  Forall (fun f => 0 <= f_width f) (h_fields t) -> like t h ->
  (forall n v, In (n, v) asg -> assignable t n v) ->
  hpf_loop (length asg + fuel) (words_of asg ++ rest) i h pad mask =
  hpf_loop fuel rest (i + 2 * length asg) (fold_left assign asg h) pad (mask || existsb (fun p => is_ign (snd p)) asg).
Proof.
  induction asg as [|[n v] asg IH]; intros t rest fuel i h pad mask Hw Hl Ha.
  - cbn [words_of flat_map app length existsb fold_left plus]. rewrite orb_false_r, Nat.mul_0_r, Nat.add_0_r. auto.
  - destruct (Ha n v (or_introl eq_refl)) as [H1 [H2 [H3 [j [f [Hj [Hn [HF Ht]]]]]]]].
    pose proof (find_first _ _ _ _ Hj Hn HF) as Hff. pose proof (like_find t h n f Hl Hff) as [g [Hg [Hp Hgw]]].
    assert (Hw0 : 0 <= f_width f). { rewrite Forall_forall in Hw. apply Hw. eapply nth_error_In; eauto. }
    cbn [words_of flat_map app fst snd length plus] in *. fold (words_of asg) in *. cbn [hpf_loop].
    apply String.eqb_neq in H1. rewrite H1. rewrite (is_ign_false _ H2). cbn [andb]. rewrite Hg.
    pose proof (like_assign t h (n, v) Hl) as Hl'.
    destruct (is_ign v) eqn:Ei.
    + rewrite (fmod_ignore n v h Ei). rewrite (IH t); auto; [|intros; apply Ha; right; auto].
      cbn [fold_left length existsb snd]. rewrite Ei, orb_true_l, orb_true_r. cbn [orb]. f_equal. lia.
    + apply String.eqb_neq in H3. rewrite H3. rewrite bytes_of_width by lia.
      destruct Ht as [Ht|[o Ho]]; [apply is_ign_iff in Ht; congruence|].
      rewrite <- Hp, <- Hgw in Ho. destruct (field_text_run _ (fmod n (set_val None) h) _ _ _ Ho) as [Hm Hr].
      rewrite Hm, Hr. cbn [bind]. rewrite (fmod_assign n v h g o Hg Ei); [|rewrite bytes_of_width by lia; auto].
      rewrite (IH t); auto; [|intros; apply Ha; right; auto].
      cbn [fold_left length existsb snd]. rewrite Ei. cbn [orb]. f_equal. lia.
Qed.

Lemma words_length : forall asg, length (words_of asg) = (2 * length asg)%nat.
Proof. induction asg as [|[n v] asg IH]; auto. cbn [words_of flat_map app length] in *. fold (words_of asg). rewrite IH. lia. Qed.

Lemma hpf_assign : forall asg t rest fuel h pad mask,
  Forall (fun f => 0 <= f_width f) (h_fields t) -> like t h ->
  (forall n v, In (n, v) asg -> assignable t n v) ->
  (length (words_of asg ++ rest) < fuel)%nat ->
  exists fuel', (length rest < fuel')%nat /\ hpf_loop fuel (words_of asg ++ rest) 0 h pad mask =
  hpf_loop fuel' rest (2 * length asg) (fold_left assign asg h) pad (mask || existsb (fun p => is_ign (snd p)) asg).
Proof.
  intros asg t rest fuel h pad mask Hw Hl Ha Hf. exists (fuel - length asg)%nat. rewrite app_length, words_length in Hf. split; [lia|].
  replace fuel with (length asg + (fuel - length asg))%nat at 1 by lia. apply (hpf_assign_go asg t); auto.
Qed.

Lemma fold_like : forall asg t h, like t h -> like t (fold_left assign asg h).
Proof. induction asg as [|p asg IH]; intros t h H; auto. cbn [fold_left]. apply IH. apply like_assign. auto. Qed.

Lemma hpf_ends : forall t h rest fuel i pad mask, like t h -> ends t rest -> (length rest < fuel)%nat ->
  hpf_loop fuel rest i h pad mask = Ret (POk i h pad mask).
Proof.
  intros t h rest fuel i pad mask Hl He Hf. destruct fuel as [|fuel]; [lia|]. destruct rest as [|w r]; [reflexivity|].
  destruct He as [H1 [H2 H3]]. cbn [hpf_loop]. apply String.eqb_neq in H1. rewrite H1. rewrite (is_ign_false _ H2). cbn [andb].
  rewrite (like_find_none t h w Hl); auto.
Qed.

(** Field [j] after the assignments. *)
Lemma fold_assign_nth : forall asg h j f, nth_error (h_fields h) j = Some f ->
  exists f', nth_error (h_fields (fold_left assign asg h)) j = Some f' /\ same_place f f' /\ f_parser f' = f_parser f /\
    (first_named (h_fields h) j (f_name f) ->
       f_val f' = match last_given asg (f_name f) with Some v => text_val f v | None => f_val f end /\
       f_skip f' = match last_given asg (f_name f) with Some v => is_ign v | None => f_skip f end) /\
    (~ first_named (h_fields h) j (f_name f) -> f' = f).
Proof.
  induction asg as [|[n v] asg IH]; intros h j f Hj.
  - exists f. cbn. unfold same_place. intuition.
  - cbn [fold_left last_given]. destruct (nth_mod_first n (assign1 v) (h_fields h) j f Hj) as [H1 H2].
    assert (HFN : forall m, first_named (h_fields (assign h (n, v))) j m <-> first_named (h_fields h) j m).
    { assert (HM : map f_name (h_fields (assign h (n, v))) = map f_name (h_fields h)).
      { unfold assign, fmod. cbn [set_fields h_fields fst snd]. apply mod_first_map. reflexivity. }
      assert (HK : forall l l2, map f_name l = map f_name l2 -> forall m, first_named l j m -> first_named l2 j m).
      { intros l l2 E m HF i g Hi Hg. pose proof (map_nth_error f_name _ _ Hg) as Hg'. rewrite <- E in Hg'.
        rewrite nth_error_map in Hg'. destruct (nth_error l i) as [y|] eqn:Ey; [|discriminate]. cbn in Hg'. apply some_inj in Hg'.
        rewrite <- Hg'. eapply HF; eauto. }
      intros m. split; apply HK; auto. }
    assert (Hdec : (f_name f = n /\ first_named (h_fields h) j n) \/ (f_name f <> n \/ ~ first_named (h_fields h) j n)).
    { destruct (string_dec (f_name f) n) as [E|E]; [|auto].
      assert (D : first_named (h_fields h) j n \/ ~ first_named (h_fields h) j n).
      { clear. unfold first_named. destruct (find (fun x => String.eqb n (f_name x)) (firstn j (h_fields h))) as [x|] eqn:Ef.
        - right. intro HF. apply find_some in Ef. destruct Ef as [Hin E]. apply String.eqb_eq in E.
          apply In_nth_error in Hin. destruct Hin as [i Hi].
          assert (i < length (firstn j (h_fields h)))%nat by (apply nth_error_Some; congruence).
          rewrite firstn_length in H. apply (HF i x); [lia| |auto].
          rewrite <- (firstn_skipn j (h_fields h)). rewrite nth_error_app1; [auto|]. rewrite firstn_length. lia.
        - left. intros i g Hi Hg E. assert (Hin : In g (firstn j (h_fields h))).
          { eapply nth_error_In with (n := i). rewrite <- Hg. rewrite <- (firstn_skipn j (h_fields h)) at 2.
            rewrite nth_error_app1; auto. rewrite firstn_length. assert (i < length (h_fields h))%nat by (apply nth_error_Some; congruence). lia. }
          apply (find_none _ _ Ef) in Hin. apply String.eqb_neq in Hin. congruence. }
      destruct D; auto. }
    destruct Hdec as [[En HF]|Hno].
    + specialize (H1 En HF). destruct (IH (assign h (n, v)) j (assign1 v f) H1) as [f' [K1 [K2 [K3 [K4 K5]]]]].
      exists f'. split; [exact K1|]. split; [exact K2|]. split; [exact K3|]. rewrite HFN in K4, K5. cbn [f_name assign1 set_skip set_val] in K4, K5.
      split; [|intro Hx; exfalso; apply Hx; rewrite En; auto]. intros HF'. destruct (K4 HF') as [V1 V2]. rewrite V1, V2. rewrite En, String.eqb_refl.
      destruct (last_given asg n); auto.
    + specialize (H2 Hno). destruct (IH (assign h (n, v)) j f H2) as [f' [K1 [K2 [K3 [K4 K5]]]]].
      exists f'. split; [exact K1|]. split; [exact K2|]. split; [exact K3|]. rewrite HFN in K4, K5. split; [|exact K5].
      intros HF'. destruct (K4 HF') as [V1 V2]. rewrite V1, V2.
      assert (E : String.eqb n (f_name f) = false).
      { apply String.eqb_neq. intro E. destruct Hno as [Hno|Hno]; [congruence|]. apply Hno. rewrite E. auto. }
      rewrite E. destruct (last_given asg (f_name f)); auto.
Qed.

Lemma last_given_in : forall asg n v, last_given asg n = Some v -> In (n, v) asg.
Proof.
  induction asg as [|[m u] r IH]; intros n v H; [discriminate|]. cbn [last_given] in H. destruct (last_given r n) eqn:E.
  - apply some_inj in H. subst. right. auto.
  - destruct (String.eqb m n) eqn:Em; [|discriminate]. apply String.eqb_eq in Em. apply some_inj in H. subst. left. auto.
Qed.

Lemma templates_names : forallb (fun t =>
  negb (String.eqb (h_name t) "help") && match h_parser t with HP_none => false | _ => true end &&
  forallb (fun f => 0 <=? f_width f) (h_fields t)) hdr_tmpls = true.
Proof. vm_compute. reflexivity. Qed.

Lemma tmpl_widths : forall t, In t hdr_tmpls -> Forall (fun f => 0 <= f_width f) (h_fields t).
Proof.
  intros t Ht. pose proof (proj1 (forallb_forall _ _) templates_names t Ht) as H. cbv beta in H. rewrite andb_true_iff in H. destruct H as [_ H].
  rewrite forallb_forall in H. apply Forall_forall. intros f Hf. specialize (H f Hf). lia.
Qed.

Lemma tmpl_help : forall t, In t hdr_tmpls -> String.eqb (h_name t) "help" = false.
Proof.
  intros t Ht. pose proof (proj1 (forallb_forall _ _) templates_names t Ht) as H. cbv beta in H.
  rewrite !andb_true_iff in H. destruct H as [[H _] _]. destruct (String.eqb (h_name t) "help"); [discriminate H|reflexivity].
Qed.

Lemma templates_nodup : nodupb (map h_name hdr_tmpls) = true.
Proof. vm_compute. reflexivity. Qed.

Lemma find_unique : forall l t, NoDup (map h_name l) -> In t l -> find (fun h => String.eqb (h_name t) (h_name h)) l = Some t.
Proof.
  induction l as [|x r IH]; intros t Hd Hin; [destruct Hin|]. cbn [map] in Hd. apply NoDup_cons_iff in Hd. destruct Hd as [Hx Hd]. cbn [find].
  destruct Hin as [->|Hin]; [rewrite String.eqb_refl; auto|]. destruct (String.eqb (h_name t) (h_name x)) eqn:E; [|auto].
  apply String.eqb_eq in E. exfalso. apply Hx. rewrite <- E. apply in_map. auto.
Qed.

Lemma find_tmpl_name : forall t, In t hdr_tmpls -> find_tmpl (h_name t) = Some t.
Proof. intros t Ht. apply find_unique; auto. apply nodupb_spec. apply templates_nodup. Qed.

Lemma assignments : forall t asg rest pad mask, In t hdr_tmpls ->
  (forall n v, In (n, v) asg -> assignable t n v) -> ends t rest ->
  exists h mask', hdr_parse_fields (words_of asg ++ rest) t pad mask = Ret (POk (2 * length asg) h pad mask') /\
    (mask' = true <-> mask = true \/ exists n v, In (n, v) asg /\ ignore_word v) /\
    h = set_fields (h_fields h) t /\ length (h_fields h) = length (h_fields t) /\
    forall j f, nth_error (h_fields t) j = Some f ->
      exists f', nth_error (h_fields h) j = Some f' /\
        (first_named (h_fields t) j (f_name f) ->
           match last_given asg (f_name f) with
           | Some v => same_place f f' /\ takes f v f'
           | None => f' = f
           end) /\
        (~ first_named (h_fields t) j (f_name f) -> f' = f).
Proof.
  intros t asg rest pad mask Ht Ha He. unfold hdr_parse_fields.
  pose proof (tmpl_widths t Ht) as Hw.
  destruct (hpf_assign asg t rest (S (length (words_of asg ++ rest))) t pad mask Hw (like_refl t) Ha ltac:(lia)) as [fuel' [Hf E]].
  pose proof (fold_like asg t t (like_refl t)) as Hl.
  exists (fold_left assign asg t), (mask || existsb (fun p => is_ign (snd p)) asg). rewrite E. rewrite (hpf_ends t _ _ _ _ _ _ Hl He Hf).
  split; [auto|]. split.
  { rewrite orb_true_iff, existsb_exists. split; intros [H|H]; auto; right.
    - destruct H as [[n v] [H1 H2]]. exists n, v. split; auto. apply is_ign_iff. auto.
    - destruct H as [n [v [H1 H2]]]. exists (n, v). split; auto. apply is_ign_iff. auto. }
  split; [apply Hl|]. split; [symmetry; eapply Forall2_length; apply Hl|].
  intros j f Hj. destruct (fold_assign_nth asg t j f Hj) as [f' [K1 [K2 [K3 [K4 K5]]]]]. exists f'. split; [exact K1|]. split; [|exact K5].
  intros HF. destruct (K4 HF) as [V1 V2]. destruct (last_given asg (f_name f)) as [v|] eqn:Eg.
  - split; [exact K2|]. unfold takes. apply last_given_in in Eg. destruct (Ha _ _ Eg) as [_ [_ [_ [j' [g [Hj' [Hn [HF' Hv]]]]]]]].
    assert (g = f). { pose proof (find_first _ _ _ _ Hj' Hn HF') as E1. pose proof (find_first _ _ _ _ Hj eq_refl HF) as E2. congruence. } subst g.
    assert (Hw0 : 0 <= f_width f). { rewrite Forall_forall in Hw. apply Hw. eapply nth_error_In; eauto. }
    unfold text_val in V1. rewrite bytes_of_width in V1 by auto.
    destruct (is_ign v) eqn:Ei.
    + left. split; [apply is_ign_iff; auto|]. auto.
    + right. assert (~ ignore_word v) by (intro X; apply is_ign_iff in X; congruence). destruct Hv as [Hv|[o Ho]]; [contradiction|].
      rewrite Ho in V1. rewrite Ho, V1. auto.
  - destruct K2 as [P1 [P2 [P3 P4]]]. destruct f, f'. cbn in *. congruence.
Qed.

Lemma argc_one : forall t ws, In t hdr_tmpls -> h_parser t = HP_fields -> zlen (h_name t :: ws) <= 100 ->
  argc_frame (h_name t :: ws) =
  (p <- hdr_parse_fields ws t 0 false;;
   match p with
   | PErr => Ret None
   | POk n h pad mask => argc_frame_loop (S (length ws)) (skipn n ws) (1 + n) (MkFrame [h] pad mask)
   end).
Proof.
  intros t ws Ht Hp Hlen. unfold argc_frame. unfold FRAME_STACK_MAX. destruct (Z.ltb_spec 100 (zlen (h_name t :: ws))); [lia|].
  cbn [length argc_frame_loop]. rewrite (tmpl_help t Ht), (find_tmpl_name t Ht). change (FRAME_STACK_MAX <=? zlen (fr_stack empty_frame)) with false. cbv iota.
  unfold parse_hdr. rewrite Hp. cbn [fr_padding fr_has_mask fr_stack empty_frame app plus]. reflexivity.
Qed.

(** The frame ends after the header. *)
Lemma frame_assignments : forall t asg rest, In t hdr_tmpls -> h_parser t = HP_fields ->
  (forall n v, In (n, v) asg -> assignable t n v) -> ends t rest ->
  match rest with w :: _ => forall u, In u hdr_tmpls -> h_name u <> w | [] => True end ->
  zlen (h_name t :: words_of asg ++ rest) <= 100 ->
  exists h mask, hdr_parse_fields (words_of asg ++ rest) t 0 false = Ret (POk (2 * length asg) h 0 mask) /\
    argc_frame (h_name t :: words_of asg ++ rest) = Ret (Some (1 + 2 * length asg, MkFrame [h] 0 mask))%nat.
Proof.
  intros t asg rest Ht Hp Ha He Hr Hlen. destruct (assignments t asg rest 0 false Ht Ha He) as [h [mask [E _]]]. exists h, mask. split; auto.
  rewrite argc_one by auto. rewrite E. cbn [bind]. rewrite <- words_length. rewrite skipn_app, skipn_all, Nat.sub_diag. cbn [app skipn argc_frame_loop].
  destruct rest as [|w r]; [reflexivity|]. destruct He as [H1 _]. apply String.eqb_neq in H1. rewrite H1.
  assert (F : find_tmpl w = None).
  { destruct (find_tmpl w) as [u|] eqn:Eu; auto. apply find_tmpl_in in Eu. destruct Eu as [Hu Hn]. exfalso. eapply Hr; eauto. }
  rewrite F. reflexivity.
Qed.

(** A field name without a value *)
Lemma missing_value : forall t asg n, In t hdr_tmpls -> h_parser t = HP_fields ->
  (forall n v, In (n, v) asg -> assignable t n v) ->
  n <> "help"%string -> ~ ignore_word n -> (exists f, In f (h_fields t) /\ f_name f = n) ->
  argc_frame (h_name t :: words_of asg ++ [n]) = Ret None.
Proof.
  intros t asg n Ht Hp Ha Hh Hi [f [Hf Hn]].
  destruct (Z_le_gt_dec (zlen (h_name t :: words_of asg ++ [n])) 100) as [Hl|Hl].
  2:{ unfold argc_frame, FRAME_STACK_MAX. destruct (Z.ltb_spec 100 (zlen (h_name t :: words_of asg ++ [n]))); [auto|lia]. }
  rewrite argc_one by auto. unfold hdr_parse_fields.
  destruct (hpf_assign asg t [n] (S (length (words_of asg ++ [n]))) t 0 false (tmpl_widths t Ht) (like_refl t) Ha ltac:(lia)) as [fuel' [Hfu E]].
  rewrite E. destruct fuel' as [|fuel']; [lia|]. cbn [hpf_loop]. apply String.eqb_neq in Hh. rewrite Hh. rewrite (is_ign_false _ Hi). cbn [andb].
  assert (F : exists g, find_field t n = Some g).
  { unfold find_field. destruct (find (fun x => String.eqb n (f_name x)) (h_fields t)) as [g|] eqn:Eg; [eauto|].
    apply (find_none _ _ Eg) in Hf. apply String.eqb_neq in Hf. congruence. }
  destruct F as [g Hg]. destruct (like_find t _ n g (fold_like asg t t (like_refl t)) Hg) as [g' [Hg' _]]. rewrite Hg'. reflexivity.
Qed.

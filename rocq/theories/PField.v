(** Which fields can be set, and which values are rejected (C11, C32, C54). *)

From Coq Require Import Nnat.
From Verif Require Import PTextIp Frame PSer SpecParse PParse PInv PStep PArgs PAssign.

(** *** C54 *)
Fixpoint indexed {A} (k : nat) (l : list A) : list (nat * A) :=
  match l with
  | [] => []
  | x :: r => (k, x) :: indexed (S k) r
  end.

Lemma indexed_in : forall A (l : list A) k j x, nth_error l j = Some x -> In ((k + j)%nat, x) (indexed k l).
Proof.
  induction l as [|y r IH]; intros k j x H; [destruct j; discriminate|]. destruct j as [|j]; cbn [indexed].
  - cbn in H. left. apply some_inj in H. rewrite Nat.add_0_r, H. auto.
  - right. replace (k + S j)%nat with (S k + j)%nat by lia. apply IH. auto.
Qed.

Definition first_namedb (fs : list field) (j : nat) (n : string) : bool :=
  negb (existsb (fun g => String.eqb (f_name g) n) (firstn j fs)).

Lemma first_namedb_spec : forall fs j n, first_namedb fs j n = true -> first_named fs j n.
Proof.
  intros fs j n H i g Hi Hg E. unfold first_namedb in H. rewrite negb_true_iff in H.
  assert (Hin : In g (firstn j fs)).
  { rewrite <- (firstn_skipn j fs) in Hg. rewrite nth_error_app1 in Hg; [eapply nth_error_In; eauto|].
    rewrite firstn_length. assert (i < length fs)%nat.
    { rewrite (firstn_skipn j fs) in Hg. apply nth_error_Some. congruence. } lia. }
  assert (X : existsb (fun g => String.eqb (f_name g) n) (firstn j fs) = true).
  { apply existsb_exists. exists g. split; auto. apply String.eqb_eq. auto. }
  congruence.
Qed.

Lemma first_namedb_false : forall fs j n, first_namedb fs j n = false -> ~ first_named fs j n.
Proof.
  intros fs j n H HF. unfold first_namedb in H. rewrite negb_false_iff in H. apply existsb_exists in H. destruct H as [g [Hin E]].
  apply String.eqb_eq in E. apply In_nth_error in Hin. destruct Hin as [i Hi].
  assert (i < length (firstn j fs))%nat by (apply nth_error_Some; congruence). rewrite firstn_length in H.
  apply (HF i g); [lia| |auto]. rewrite <- (firstn_skipn j fs). rewrite nth_error_app1; [auto|]. rewrite firstn_length. lia.
Qed.

Definition unsettableb (h : string) (j : nat) : bool :=
  existsb (fun p => String.eqb (fst p) h && (snd p =? j)%nat) unsettable.

Lemma unsettableb_in : forall h j, unsettableb h j = true <-> In (h, j) unsettable.
Proof.
  intros h j. unfold unsettableb. rewrite existsb_exists. split.
  - intros [[h' j'] [H1 H2]]. cbn [fst snd] in H2. apply andb_true_iff in H2. destruct H2 as [H2 H3].
    apply String.eqb_eq in H2. apply Nat.eqb_eq in H3. subst. auto.
  - intros H. exists (h, j). split; auto. cbn [fst snd]. rewrite String.eqb_refl, Nat.eqb_refl. auto.
Qed.

Lemma templates_settable : forallb (fun t => forallb (fun p =>
    unsettableb (h_name t) (fst p) ||
    (first_namedb (h_fields t) (fst p) (f_name (snd p)) && negb (String.eqb (f_name (snd p)) "help") && negb (is_ign (f_name (snd p)))))
  (indexed 0 (h_fields t))) hdr_tmpls = true.
Proof. vm_compute. reflexivity. Qed.

Lemma settable_name : forall t j f, In t hdr_tmpls -> nth_error (h_fields t) j = Some f -> ~ In (h_name t, j) unsettable ->
  first_named (h_fields t) j (f_name f) /\ f_name f <> "help"%string /\ ~ ignore_word (f_name f).
Proof.
  intros t j f Ht Hj Hn. pose proof (proj1 (forallb_forall _ _) templates_settable t Ht) as H. cbv beta in H.
  rewrite forallb_forall in H. specialize (H _ (indexed_in _ _ 0%nat _ _ Hj)). cbn [fst snd plus] in H.
  assert (E : unsettableb (h_name t) j = false).
  { destruct (unsettableb (h_name t) j) eqn:E; auto. apply unsettableb_in in E. contradiction. }
  rewrite E in H. cbn [orb] in H. rewrite !andb_true_iff in H. destruct H as [[H1 H2] H3].
  split; [apply first_namedb_spec; auto|]. rewrite negb_true_iff in H2, H3. split; [apply String.eqb_neq; auto|].
  intro X. apply is_ign_iff in X. congruence.
Qed.

Lemma one_value : forall t j f v o, In t hdr_tmpls -> h_parser t = HP_fields ->
  nth_error (h_fields t) j = Some f -> ~ In (h_name t, j) unsettable ->
  v <> "help"%string -> ~ ignore_word v -> field_text (f_parser f) v (Z.max 1 ((f_width f + 7) / 8)) = Ret o ->
  exists h f', argc_frame [h_name t; f_name f; v] = Ret (Some (3%nat, MkFrame [h] 0 false)) /\
    h = set_fields (h_fields h) t /\
    nth_error (h_fields h) j = Some f' /\ same_place f f' /\ f_val f' = o /\ f_skip f' = false /\
    forall i g, i <> j -> nth_error (h_fields t) i = Some g -> nth_error (h_fields h) i = Some g.
Proof.
  intros t j f v o Ht Hp Hj Hu Hv Hi Ho. destruct (settable_name t j f Ht Hj Hu) as [HF [Hh Hn]].
  assert (HA : forall n w, In (n, w) [(f_name f, v)] -> assignable t n w).
  { intros n w [E|[]]. injection E as <- <-. split; [auto|split; [auto|split; [auto|]]]. exists j, f. eauto 10. }
  destruct (frame_assignments t [(f_name f, v)] [] Ht Hp HA I I) as [h [m [E1 E2]]]; [cbn; lia|].
  destruct (assignments t [(f_name f, v)] [] 0 false Ht HA I) as [h2 [m2 [E3 [Hm [Hs [Hl HN]]]]]].
  rewrite E1 in E3. apply ret_inj in E3. injection E3 as <- <-.
  assert (m = false). { destruct m; auto. destruct (proj1 Hm eq_refl) as [X|[n [w [[X|[]] X2]]]]; [discriminate|]. injection X as <- <-. contradiction. }
  subst m. cbn [words_of flat_map app fst snd length] in E2.
  destruct (HN j f Hj) as [f' [K1 [K2 _]]]. specialize (K2 HF). cbn [last_given] in K2. rewrite String.eqb_refl in K2.
  destruct K2 as [P [[X _]|[_ [T S]]]]; [contradiction|]. rewrite Ho in T. apply ret_inj in T.
  exists h, f'. split; [exact E2|]. split; [auto|]. split; [auto|]. split; [auto|]. split; [auto|]. split; [auto|].
  intros i g Hij Hg. destruct (HN i g Hg) as [g' [G1 [G2 G3]]]. rewrite G1. f_equal.
  destruct (string_dec (f_name f) (f_name g)) as [E|E].
  - apply G3. intro HG. destruct (Nat.lt_trichotomy i j) as [H|[H|H]]; [|contradiction|].
    + apply (HF i g); auto.
    + apply (HG j f); auto.
  - assert (D : first_named (h_fields t) i (f_name g) \/ ~ first_named (h_fields t) i (f_name g)).
    { destruct (first_namedb (h_fields t) i (f_name g)) eqn:D; [left; apply first_namedb_spec; auto|right; apply first_namedb_false; auto]. }
    destruct D as [D|D]; [|auto]. specialize (G2 D). cbn [last_given] in G2.
    assert (Eb : String.eqb (f_name f) (f_name g) = false) by (apply String.eqb_neq; auto). rewrite Eb in G2. auto.
Qed.

(** The duplicates are never reached. *)
Lemma duplicates : forall t j f asg rest pad mask, In t hdr_tmpls -> nth_error (h_fields t) j = Some f ->
  ~ first_named (h_fields t) j (f_name f) ->
  (forall n v, In (n, v) asg -> assignable t n v) -> ends t rest ->
  exists n h pad' mask', hdr_parse_fields (words_of asg ++ rest) t pad mask = Ret (POk n h pad' mask') /\
    nth_error (h_fields h) j = Some f.
Proof.
  intros t j f asg rest pad mask Ht Hj HF HA HE. destruct (assignments t asg rest pad mask Ht HA HE) as [h [m [E [_ [_ [_ HN]]]]]].
  destruct (HN j f Hj) as [f' [K1 [_ K2]]]. specialize (K2 HF). subst f'. eauto 10.
Qed.

(** *** C11 *)
Lemma padding_tmpl : find_tmpl "padding" = Some HDR_PADDING /\ h_parser HDR_PADDING = HP_padding.
Proof. split; vm_compute; reflexivity. Qed.
Lemma data_tmpl : exists t, find_tmpl "data" = Some t /\ h_parser t = HP_payload.
Proof. eexists. split; vm_compute; reflexivity. Qed.

Lemma bad_padding : forall w r, parse_uint32 w = Ret None -> argc_frame ("padding"%string :: w :: r) = Ret None.
Proof.
  intros w r H. unfold argc_frame. destruct (FRAME_STACK_MAX <? zlen ("padding"%string :: w :: r)); auto.
  change (length ("padding"%string :: w :: r)) with (S (S (length r))). cbn [argc_frame_loop].
  change (String.eqb "padding" "help") with false. cbv iota. rewrite (proj1 padding_tmpl).
  change (FRAME_STACK_MAX <=? zlen (fr_stack empty_frame)) with false. cbv iota. unfold parse_hdr. rewrite (proj2 padding_tmpl).
  unfold padding_parser. rewrite H. reflexivity.
Qed.

Lemma bad_data : forall ws n o, parse_var_bytes ws = Ret (n, o) -> n < 0 -> argc_frame ("data"%string :: ws) = Ret None.
Proof.
  intros ws n o H Hn. unfold argc_frame. destruct (FRAME_STACK_MAX <? zlen ("data"%string :: ws)); auto.
  change (length ("data"%string :: ws)) with (S (length ws)). cbn [argc_frame_loop].
  change (String.eqb "data" "help") with false. cbv iota. destruct data_tmpl as [t [E1 E2]]. rewrite E1.
  change (FRAME_STACK_MAX <=? zlen (fr_stack empty_frame)) with false. cbv iota. unfold parse_hdr. rewrite E2.
  unfold payload_parser. rewrite H. cbn [bind]. destruct (Z.ltb_spec n 0); [reflexivity|lia].
Qed.

(** *** C32 *)
Definition all_ascii : list ascii := map (fun k => ascii_of_N (N.of_nat k)) (seq 0 256).

Lemma all_ascii_in : forall c, In c all_ascii.
Proof.
  intros c. unfold all_ascii. apply in_map_iff. exists (N.to_nat (N_of_ascii c)). rewrite N2Nat.id, ascii_N_embedding. split; auto.
  apply in_seq. pose proof (N_ascii_bounded c). lia.
Qed.

Definition code_chk (c0 c2 c3 : ascii) : bool :=
  match coap_parse_code (String c0 (String "." (String c2 (String c3 "")))) with
  | Some b =>
      let c := code c0 - 48 in let d := code c2 - 48 in let e := code c3 - 48 in
      (0 <=? c) && (c <=? 7) && (0 <=? d) && (d <=? 3) && (0 <=? e) && (10 * d + e <=? 31) &&
      match b with [x] => x =? 32 * c + (10 * d + e) | _ => false end
  | None => true
  end.

Definition low_ascii : list ascii := map (fun k => ascii_of_N (N.of_nat k)) (seq 48 8).

Lemma low_ascii_in : forall c, 48 <= scode c <= 55 -> In c low_ascii.
Proof.
  intros c H. unfold low_ascii. apply in_map_iff. exists (N.to_nat (N_of_ascii c)). rewrite N2Nat.id, ascii_N_embedding. split; auto.
  pose proof (N_ascii_bounded c). unfold scode, code in H. destruct (Z.ltb_spec (Z.of_N (N_of_ascii c)) 128); apply in_seq; lia.
Qed.

Lemma codes_checked : forallb (fun c0 => forallb (fun c2 => forallb (fun c3 => code_chk c0 c2 c3) all_ascii) low_ascii) low_ascii = true.
Proof. vm_compute. reflexivity. Qed.

Lemma dot_char : forall c, code c = 46 -> c = "."%char.
Proof.
  intros c H. rewrite <- (ascii_N_embedding c). unfold code in H. assert (E : N_of_ascii c = 46%N) by lia. rewrite E. reflexivity.
Qed.

Lemma coap_code_shape : forall s b, coap_parse_code s = Some b ->
  exists c0 c2 c3, s = String c0 (String "." (String c2 (String c3 ""))) /\ code_chk c0 c2 c3 = true.
Proof.
  intros s b H. pose proof H as H0. destruct s as [|c0 [|c1 [|c2 [|c3 [|]]]]]; cbn [coap_parse_code] in H0; try discriminate.
  destruct ((48 <=? scode c0) && (scode c0 <=? 55) && (code c1 =? 46) && (48 <=? scode c2) && (scode c2 <=? 51) && (48 <=? scode c3) && (scode c2 <=? 57)) eqn:E; [|discriminate].
  rewrite !andb_true_iff in E. assert (Hc1 : code c1 = 46) by lia. apply dot_char in Hc1. subst c1.
  exists c0, c2, c3. split; auto. pose proof codes_checked as K. rewrite forallb_forall in K. specialize (K c0 (low_ascii_in c0 ltac:(lia))).
  rewrite forallb_forall in K. specialize (K c2 (low_ascii_in c2 ltac:(lia))). rewrite forallb_forall in K. apply (K c3 (all_ascii_in c3)).
Qed.

Lemma coap_code_only : forall s b, coap_parse_code s = Some b ->
  exists c d e, 0 <= c <= 7 /\ 0 <= d <= 3 /\ 0 <= e /\ 10 * d + e <= 31 /\
    s = String (char_of (48 + c)) (String "." (String (char_of (48 + d)) (String (char_of (48 + e)) ""))) /\
    b = [32 * c + (10 * d + e)].
Proof.
  intros s b H. destruct (coap_code_shape s b H) as [c0 [c2 [c3 [-> K]]]]. unfold code_chk in K. rewrite H in K. rewrite !andb_true_iff in K.
  exists (code c0 - 48), (code c2 - 48), (code c3 - 48). unfold char_of.
  replace (48 + (code c0 - 48)) with (code c0) by lia. replace (48 + (code c2 - 48)) with (code c2) by lia. replace (48 + (code c3 - 48)) with (code c3) by lia.
  unfold code. rewrite !N2Z.id, !ascii_N_embedding. fold (code c0) (code c2) (code c3).
  destruct b as [|x [|]]; try (destruct K as [_ K]; discriminate K).
  repeat match goal with |- _ /\ _ => split end; try lia; [reflexivity|]. destruct K as [_ K]. apply Z.eqb_eq in K. rewrite K. reflexivity.
Qed.

Lemma codes_accepted : forallb (fun c => forallb (fun dd =>
   match coap_parse_code (code_text (Z.of_nat c) (Z.of_nat dd)) with Some [x] => x =? 32 * Z.of_nat c + Z.of_nat dd | _ => false end)
  (seq 0 32)) (seq 0 8) = true.
Proof. vm_compute. reflexivity. Qed.

Lemma coap_code_all : forall c dd, 0 <= c <= 7 -> 0 <= dd <= 31 -> coap_parse_code (code_text c dd) = Some [32 * c + dd].
Proof.
  intros c dd Hc Hd. pose proof codes_accepted as K. rewrite forallb_forall in K. specialize (K (Z.to_nat c) ltac:(apply in_seq; lia)).
  rewrite forallb_forall in K. specialize (K (Z.to_nat dd) ltac:(apply in_seq; lia)). rewrite !Z2Nat.id in K by lia.
  destruct (coap_parse_code (code_text c dd)) as [[|x [|]]|]; try discriminate. f_equal. f_equal. lia.
Qed.

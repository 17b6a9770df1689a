(** The frames are as the help says (C77). *)

From Coq Require Import DecimalString DecimalFacts DecimalPos DecimalN.
From Verif Require Import PTextIp PTextNum PTextHex PTextMac PTextAddr Frame PSer SpecParse PParse PMatch SpecFrame PFrame PInv PStep PArgs PSoft PFill PGroup PAll PSafe PAssign PField SpecOrigin POrigin PImage PSum PEmit SpecFill PCheck PCheck2 PLen PKeep PTwice PCoap PSegs PWords SpecLayout PLayout Cmd Exec SpecExec PCmd PPair PExec PReplay SpecWhole PWhole Report SpecReport SpecHelp PHelp SpecDoc.

(** *** Numbers in the help *)
Lemma uint_string : forall d d', d <> Decimal.Nil -> d' <> Decimal.Nil -> NilZero.string_of_uint d = NilZero.string_of_uint d' -> d = d'.
Proof.
  intros d d' H H' E. assert (K : NilZero.uint_of_string (NilZero.string_of_uint d) = NilZero.uint_of_string (NilZero.string_of_uint d')) by congruence.
  rewrite !NilZero.usu in K by auto. congruence.
Qed.

Lemma to_uint_nonnil : forall n, N.to_uint n <> Decimal.Nil.
Proof. intros [|p]; cbn; [discriminate|]. apply DecimalPos.Unsigned.to_uint_nonnil. Qed.

Lemma decimal_inj : forall a b, 0 <= a -> 0 <= b -> decimal a = decimal b -> a = b.
Proof.
  intros a b Ha Hb E. unfold decimal in E. apply uint_string in E; try apply to_uint_nonnil.
  assert (K : N.of_uint (N.to_uint (Z.to_N a)) = N.of_uint (N.to_uint (Z.to_N b))) by congruence. rewrite !DecimalN.Unsigned.of_to in K. lia.
Qed.

(** *** The headers of the program against the help *)
Definition row (f : field) : string * Z * Z := (f_name f, f_off f, f_width f).
Definition shares (f g : field) : bool := (f_off f <? f_off g + f_width g) && (f_off g <? f_off f + f_width f).
Definition the_width (t : hdr) (n : string) : Z := match find_field t n with Some f => f_width f | None => 0 end.
Definition line_of (t : hdr) (fld : string) : option string := find (fun l => String.eqb fld (fst (fst (field_row l)))) (field_lines (hdr_help [t] 0 true)).
Definition def_num (f : field) : Z := match f_def f with Some v => positional 256 v mod 2 ^ f_width f | None => 0 end.
Definition reads_as (v : string) (k w x : Z) : bool := match parse_bytes v k with Ret (Some l) => positional 256 l mod 2 ^ w =? x | _ => true end.
Definition known_defaults : list (Z * string) := [(2, "0x8880"); (2, "0x000a"); (2, "0x0009"); (2, "0x8100"); (2, "1"); (1, "1"); (1, "0xff"); (6, "ff:ff:ff:ff:ff:ff")]%string.

Definition fields_distinct (t : hdr) : bool :=
  forallb (fun j => forallb (fun i => match nth_error (h_fields t) i, nth_error (h_fields t) j with
    | Some f, Some g => (i =? j)%nat || negb (String.eqb (f_name f) (f_name g) && (f_off f =? f_off g) && (f_width f =? f_width g)) && negb ((is_some (f_def f) || is_some (f_def g)) && shares f g)
    | _, _ => true end) (seq 0 (length (h_fields t)))) (seq 0 (length (h_fields t))).
Definition fields_apart (t : hdr) : bool :=
  forallb (fun j => forallb (fun i => match nth_error (h_fields t) i, nth_error (h_fields t) j with
    | Some f, Some g => (i =? j)%nat || negb (shares f g)
    | _, _ => true end) (seq 0 (length (h_fields t)))) (seq 0 (length (h_fields t))).

Definition announced_fits (t : hdr) (f : field) : bool :=
  match find_field t (f_name f), line_of t (f_name f) with
  | Some g, Some l =>
      match announced l with
      | Some v => (String.eqb (h_name t) "ifh-la" && String.eqb (f_name f) "v-rsv1") || reads_as v ((f_width g + 7) / 8) (f_width g) (def_num g)
      | None => true
      end &&
      (negb (is_some (f_def g)) || match announced l with Some v => existsb (fun q => (fst q =? (f_width g + 7) / 8) && String.eqb (snd q) v) known_defaults | None => false end)
  | _, _ => false
  end.
Definition silent_help (t : hdr) (f : field) : bool :=
  match line_of t (f_name f) with Some l => negb (is_some (announced l)) | None => true end.

Definition static_fits (t : hdr) : bool :=
  existsb (String.eqb (h_name t)) changing ||
  (match h_parser t with HP_fields => true | _ => false end && (0 <=? h_size t) && (h_size t <=? 200) && steady (h_fill t) &&
   negb (existsb (String.eqb (h_name t)) ["igmp"; "mld"; "sv"; "profinet-rtc"; "coap-opt"]%string) &&
   forallb (fun f => field_fits (h_name t) t [(f_name f, the_width t (f_name f))] (f_name f) && negb (String.eqb (f_name f) "-") && negb (is_some (f_val f)) && (0 <=? f_off f) && (1 <=? f_width f) && (f_off f + f_width f <=? 8 * h_size t)) (h_fields t) &&
   existsb (fun f => f_off f + f_width f =? 8 * h_size t) (h_fields t) &&
   fields_distinct t &&
   if existsb (String.eqb (h_name t)) switch_headers then
     match h_fill t with FL_none => true | _ => false end && forallb (announced_fits t) (h_fields t)
   else
     fields_apart t && forallb (silent_help t) (h_fields t) &&
     match find (fun p => String.eqb (fst p) (h_name t)) formats with
     | Some p => forallb (fun f => match find_field t (f_name f), place (snd p) (f_name f) with Some g, Some (o, w) => (o =? f_off g) && (w =? f_width g) | _, _ => false end) (h_fields t)
     | None => false
     end).

Lemma statics_fit : forallb static_fits hdr_tmpls = true.
Proof. vm_compute. reflexivity. Qed.

Lemma indexed : forall (P : nat -> nat -> bool) n, forallb (fun j => forallb (fun i => P i j) (seq 0 n)) (seq 0 n) = true -> forall i j, (i < n)%nat -> (j < n)%nat -> P i j = true.
Proof. intros P n H i j Hi Hj. rewrite forallb_forall in H. specialize (H j ltac:(apply in_seq; lia)). cbv beta in H. rewrite forallb_forall in H. apply H. apply in_seq. lia. Qed.

Lemma shares_spec : forall f g, shares f g = true <-> share_a_bit (f_off f) (f_width f) (f_off g) (f_width g).
Proof. intros f g. unfold shares, share_a_bit. lia. Qed.

Record static (t : hdr) : Prop := MkStatic {
  s_tmpl : In t hdr_tmpls;
  s_find : find_tmpl (h_name t) = Some t;
  s_parser : h_parser t = HP_fields;
  s_size : 0 <= h_size t <= 200;
  s_steady : steady (h_fill t) = true;
  s_plain : existsb (String.eqb (h_name t)) ["igmp"; "mld"; "sv"; "profinet-rtc"; "coap-opt"]%string = false;
  s_fields : forall f, In f (h_fields t) -> field_fits (h_name t) t [(f_name f, the_width t (f_name f))] (f_name f) = true /\ f_name f <> "-"%string /\
    f_val f = None /\ 0 <= f_off f /\ 1 <= f_width f /\ f_off f + f_width f <= 8 * h_size t;
  s_last : exists f, In f (h_fields t) /\ f_off f + f_width f = 8 * h_size t;
  s_distinct : forall i j f g, nth_error (h_fields t) i = Some f -> nth_error (h_fields t) j = Some g -> i <> j ->
    row f <> row g /\ (f_def f <> None \/ f_def g <> None -> ~ overlap f g);
  s_kind : (In (h_name t) switch_headers /\ h_fill t = FL_none /\ forall f, In f (h_fields t) -> announced_fits t f = true) \/
    (~ In (h_name t) switch_headers /\ (forall i j f g, nth_error (h_fields t) i = Some f -> nth_error (h_fields t) j = Some g -> i <> j -> ~ overlap f g) /\
     (forall f, In f (h_fields t) -> silent_help t f = true) /\
     exists m, In (h_name t, m) formats /\ forall f, In f (h_fields t) -> exists g, find_field t (f_name f) = Some g /\ place m (f_name f) = Some (f_off g, f_width g)) }.

Lemma in_names : forall w l, existsb (String.eqb w) l = true <-> In w l.
Proof. intros w l. rewrite existsb_exists. split; [intros [x [H E]]; apply String.eqb_eq in E; congruence|]. intros H. exists w. split; auto. apply String.eqb_refl. Qed.

Lemma static_all : forall t, In t hdr_tmpls -> ~ In (h_name t) changing -> static t.
Proof.
  intros t Ht Hc. pose proof statics_fit as HF. rewrite forallb_forall in HF. specialize (HF t Ht). unfold static_fits in HF.
  rewrite <- in_names in Hc. destruct (existsb (String.eqb (h_name t)) changing); [congruence|]. cbn [orb] in HF.
  rewrite !andb_true_iff in HF. destruct HF as [[[[[[[[H1 H2] H2'] H3] H4] H5] H6] H7] H8].
  rewrite forallb_forall in H5. apply negb_true_iff in H4.
  constructor; auto.
  - apply find_tmpl_name; auto.
  - destruct (h_parser t); auto; discriminate.
  - lia.
  - intros f Hf. specialize (H5 f Hf). cbv beta in H5. rewrite !andb_true_iff in H5. destruct H5 as [[[[[A B] V] C] D] E]. apply negb_true_iff, String.eqb_neq in B. apply negb_true_iff in V. split; [exact A|]. split; [exact B|]. split; [destruct (f_val f); [discriminate|auto]|]. lia.
  - apply existsb_exists in H6. destruct H6 as [f [A B]]. exists f. split; auto. lia.
  - intros i j f g Hi Hj Hne. assert (Li : (i < length (h_fields t))%nat) by (apply nth_error_Some; congruence). assert (Lj : (j < length (h_fields t))%nat) by (apply nth_error_Some; congruence).
    pose proof (indexed _ _ H7 i j Li Lj) as K. cbv beta in K. rewrite Hi, Hj in K. destruct (Nat.eqb_spec i j); [contradiction|]. cbn [orb] in K. rewrite andb_true_iff in K. destruct K as [K1 K2]. apply negb_true_iff in K1, K2. split.
    + unfold row. intros E. apply pair_inj in E. destruct E as [E E3]. apply pair_inj in E. destruct E as [E1 E2]. rewrite E1, E2, E3, String.eqb_refl, !Z.eqb_refl in K1. discriminate.
    + intros HD HO. assert (E : shares f g = true) by (apply shares_spec; exact HO). rewrite E, andb_true_r in K2. destruct HD as [HD|HD]; [destruct (f_def f)|destruct (f_def g)]; try congruence; cbn [is_some] in K2; [discriminate|rewrite orb_true_r in K2; discriminate].
  - destruct (existsb (String.eqb (h_name t)) switch_headers) eqn:Es.
    + left. apply in_names in Es. split; auto. rewrite andb_true_iff in H8. destruct H8 as [A B]. rewrite forallb_forall in B. split; auto. destruct (h_fill t); auto; discriminate.
    + right. split; [rewrite <- in_names; congruence|]. rewrite !andb_true_iff in H8. destruct H8 as [[A B] C]. split.
      { intros i j f g Hi Hj Hne HO. assert (Li : (i < length (h_fields t))%nat) by (apply nth_error_Some; congruence). assert (Lj : (j < length (h_fields t))%nat) by (apply nth_error_Some; congruence).
        pose proof (indexed _ _ A i j Li Lj) as K. cbv beta in K. rewrite Hi, Hj in K. destruct (Nat.eqb_spec i j); [contradiction|]. cbn [orb] in K. apply negb_true_iff in K. assert (E : shares f g = true) by (apply shares_spec; exact HO). congruence. }
      rewrite forallb_forall in B. split; [exact B|]. destruct (find _ formats) as [p|] eqn:Ef; [|discriminate]. apply find_some in Ef. destruct Ef as [E1 E2]. apply String.eqb_eq in E2.
      exists (snd p). split; [rewrite <- E2; destruct p; auto|]. rewrite forallb_forall in C. intros f Hf. specialize (C f Hf). cbv beta in C. destruct (find_field t (f_name f)) as [g|]; [|discriminate]. destruct (place (snd p) (f_name f)) as [[o w]|]; [|discriminate].
      exists g. split; auto. rewrite andb_true_iff in C. destruct C as [C1 C2]. apply Z.eqb_eq in C1, C2. subst. auto.
Qed.

(** *** What the help shows *)
Lemma help_lines_static : forall t, static t -> help_lines (h_name t) (field_lines (hdr_help [t] 0 true)) /\
  forall ls, help_lines (h_name t) ls -> ls = field_lines (hdr_help [t] 0 true).
Proof.
  intros t HS. pose proof (hdr_help_shown t (s_tmpl _ HS) (s_parser _ HS)) as E. split; [exists (hdr_help [t] 0 true); auto|].
  intros ls [s [E1 ->]]. rewrite E in E1. apply ret_inj in E1. apply pair_inj in E1. destruct E1 as [_ <-]. auto.
Qed.

Lemma help_rows_static : forall t, static t -> help_rows (h_name t) (map row (h_fields t)) /\ forall rs, help_rows (h_name t) rs -> rs = map row (h_fields t).
Proof.
  intros t HS. destruct (help_lines_static t HS) as [H1 H2]. pose proof (rows_shown t (s_tmpl _ HS) (s_parser _ HS)) as HR. unfold listed_fields in HR. fold (field_lines (hdr_help [t] 0 true)) in HR.
  assert (HP : forall f, In f (h_fields t) -> 0 <= f_off f /\ 0 <= f_width f) by (intros f Hf; destruct (s_fields _ HS f Hf) as [_ [_ K]]; lia).
  remember (field_lines (hdr_help [t] 0 true)) as ls eqn:EL. clear EL. split.
  - exists ls. split; [auto|]. clear H1 H2. revert HR HP. generalize (h_fields t). intros fs. revert ls. induction fs as [|f fs IH]; intros ls HR HP; destruct ls as [|l ls]; try discriminate; cbn [map]; constructor.
    + cbn [map] in HR. injection HR as E _. rewrite E. split; [reflexivity|]. apply HP. left. auto.
    + apply IH; [cbn [map] in HR; injection HR as _ E; exact E|]. intros g Hg. apply HP. right. auto.
  - intros rs [ls' [HL HF]]. apply H2 in HL. subst ls'. clear H1 H2. revert ls rs HR HP HF. generalize (h_fields t). intros fs. induction fs as [|f fs IH]; intros ls rs HR HP HF; destruct ls as [|l ls]; try discriminate.
    + inversion HF. auto.
    + destruct rs as [|r rs]; [inversion HF|]. assert (HF1 : field_row l = (fst (fst r), decimal (snd (fst r)), decimal (snd r)) /\ 0 <= snd (fst r) /\ 0 <= snd r) by (inversion HF; auto).
      assert (HF2 : Forall2 (fun l r => field_row l = (fst (fst r), decimal (snd (fst r)), decimal (snd r)) /\ 0 <= snd (fst r) /\ 0 <= snd r) ls rs) by (inversion HF; auto).
      cbn [map]. f_equal; [|eapply IH; [cbn [map] in HR; injection HR as _ E; exact E|intros; apply HP; right; auto|exact HF2]].
      destruct HF1 as [E [P1 P2]]. cbn [map] in HR. injection HR as E' _. rewrite E in E'. unfold shows in E'. apply pair_inj in E'. destruct E' as [E' E3]. apply pair_inj in E'. destruct E' as [E1 E2].
      destruct (HP f (or_introl eq_refl)) as [Q1 Q2]. apply decimal_inj in E2; auto. apply decimal_inj in E3; auto. destruct r as [[a b] c]. cbn [fst snd] in *. unfold row. congruence.
Qed.

Lemma find_map : forall A B (g : A -> B) (P : B -> bool) l, find P (map g l) = match find (fun x => P (g x)) l with Some x => Some (g x) | None => None end.
Proof. induction l as [|x l IH]; [auto|]. cbn [map find]. destruct (P (g x)); auto. Qed.

Lemma documented_static : forall t fld off w, static t -> (documented (h_name t) fld off w <-> exists f, find_field t fld = Some f /\ f_off f = off /\ f_width f = w).
Proof.
  intros t fld off w HS. destruct (help_rows_static t HS) as [H1 H2]. split.
  - intros [rs [HR HF]]. apply H2 in HR. subst rs. rewrite find_map in HF. cbn [row fst] in HF. unfold find_field. destruct (find _ (h_fields t)) as [f|]; [|discriminate]. apply some_inj in HF. unfold row in HF.
    apply pair_inj in HF. destruct HF as [HF E3]. apply pair_inj in HF. destruct HF as [E1 E2]. exists f. auto.
  - intros [f [HF [E1 E2]]]. exists (map row (h_fields t)). split; auto. rewrite find_map. cbn [row fst]. unfold find_field in HF. rewrite HF. unfold row. rewrite E1, E2. apply find_some in HF. destruct HF as [_ E]. apply String.eqb_eq in E. congruence.
Qed.

Lemma header_ends_static : forall t B, static t -> (header_ends (h_name t) B <-> B = 8 * h_size t).
Proof.
  intros t B HS. destruct (help_rows_static t HS) as [H1 H2]. destruct (s_last _ HS) as [l [HL1 HL2]].
  assert (HU : forall r, In r (map row (h_fields t)) -> snd (fst r) + snd r <= 8 * h_size t).
  { intros r Hr. apply in_map_iff in Hr. destruct Hr as [f [<- Hf]]. cbn [row fst snd]. apply (s_fields _ HS f Hf). }
  split.
  - intros [rs [HR [[r [Hr E]] HM]]]. apply H2 in HR. subst rs. pose proof (HU r Hr). specialize (HM (row l) (in_map row _ _ HL1)). cbn [row fst snd] in HM. lia.
  - intros ->. exists (map row (h_fields t)). split; [auto|]. split; [exists (row l); split; [apply in_map; auto|exact HL2]|exact HU].
Qed.

(** *** One header *)
Record helped (p : string * list (string * string)) (t : hdr) : Prop := MkHelped {
  hp_static : static t;
  hp_name : h_name t = fst p;
  hp_asg : forall fld s, In (fld, s) (snd p) -> exists f x, find_field t fld = Some f /\ means (fst p) fld (f_width f) s x }.

Lemma helped_all : forall p, from_help p -> exists t, helped p t.
Proof.
  intros p [H1 [H2 H3]]. assert (EL : listed_headers headers_help = map h_name hdr_tmpls) by (vm_compute; reflexivity). rewrite EL in H1. apply in_map_iff in H1. destruct H1 as [t [E Ht]].
  exists t. rewrite <- E in H2. pose proof (static_all t Ht H2) as HS. constructor; auto. intros fld s Hin. destruct (H3 fld s Hin) as [off [w [x [HD HM]]]]. rewrite <- E in HD. apply documented_static in HD; auto. destruct HD as [f [F1 [F2 F3]]].
  exists f, x. split; auto. rewrite F3. auto.
Qed.

Lemma helped_one : forall p t t', helped p t -> helped p t' -> t = t'.
Proof. intros p t t' H H'. pose proof (s_find _ (hp_static _ _ H)) as A. pose proof (s_find _ (hp_static _ _ H')) as B. rewrite (hp_name _ _ H) in A. rewrite (hp_name _ _ H') in B. congruence. Qed.

Lemma field_in : forall t fld f, find_field t fld = Some f -> In f (h_fields t) /\ f_name f = fld.
Proof. intros t fld f H. unfold find_field in H. apply find_some in H. destruct H as [A B]. apply String.eqb_eq in B. auto. Qed.

Lemma means_static : forall t fld f s x, static t -> find_field t fld = Some f -> means (h_name t) fld (f_width f) s x ->
  f_val f = None /\ existsb (String.eqb fld) keywords = false /\ existsb (String.eqb s) keywords = false /\
  exists l, field_text (f_parser f) s (Z.max 1 ((f_width f + 7) / 8)) = Ret (Some l) /\ positional 256 l mod 2 ^ f_width f = x mod 2 ^ f_width f.
Proof.
  intros t fld f s x HS HF HM. destruct (field_in _ _ _ HF) as [Hin Hn]. destruct (s_fields _ HS f Hin) as [K1 [K2 K3]]. rewrite Hn in *.
  assert (EW : the_width t fld = f_width f) by (unfold the_width; rewrite HF; auto). rewrite EW in K1.
  assert (HP : place [(fld, f_width f)] fld = Some (0, f_width f)) by (unfold place; cbn [place_from]; rewrite String.eqb_refl; reflexivity).
  destruct (means_read _ _ _ _ _ _ _ _ _ K1 K2 HP HF HM) as [_ [_ K]]. exact K.
Qed.

Lemma no_value_static : forall t f, static t -> In f (h_fields t) -> f_val f = None.
Proof. intros t f HS Hin. apply (s_fields _ HS f Hin). Qed.

Lemma helped_assignable : forall p t, helped p t -> forall n v, In (n, v) (snd p) -> assignable t n v /\ is_ign v = false.
Proof.
  intros p t HP n v Hin. destruct (hp_asg _ _ HP n v Hin) as [f [x [Hf HM]]]. rewrite <- (hp_name _ _ HP) in HM.
  destruct (means_static t n f v x (hp_static _ _ HP) Hf HM) as [H3 [H4 [H5 [l [H6 H7]]]]].
  apply keyword_facts in H4, H5. split; [|apply is_ign_false; apply H5]. split; [apply H4|split; [apply H4|split; [apply H5|]]].
  unfold find_field in Hf. destruct (POrigin.find_first _ _ _ _ Hf) as [j [K1 [K2 K3]]]. apply String.eqb_eq in K2. exists j, f. split; auto. split; auto. split; [|right; eauto].
  intros i g Hi Hg E. specialize (K3 i g Hi Hg). cbv beta in K3. rewrite E, String.eqb_refl in K3. discriminate.
Qed.

Lemma hdr_for_helped : forall p t, helped p t -> hdr_for p = fold_left assign (snd p) t /\ h_name (hdr_for p) = fst p /\ h_size (hdr_for p) = h_size t /\ h_fill (hdr_for p) = h_fill t.
Proof.
  intros p t H. pose proof (s_find _ (hp_static _ _ H)) as E. rewrite (hp_name _ _ H) in E. unfold hdr_for. rewrite E. destruct (fold_like (snd p) t t (like_refl t)) as [EL _]. split; [auto|]. rewrite EL. cbn [set_fields h_name h_size h_fill].
  rewrite (hp_name _ _ H). auto.
Qed.

(** Field [j] of the header. *)
Lemma field_for : forall p t j f, helped p t -> nth_error (h_fields t) j = Some f ->
  exists f', nth_error (h_fields (hdr_for p)) j = Some f' /\ f_name f' = f_name f /\ f_off f' = f_off f /\ f_width f' = f_width f /\ f_def f' = f_def f /\
    (find_field t (f_name f) = Some f -> forall s, last_given (snd p) (f_name f) = Some s ->
       exists v, f_val f' = Some v /\ forall x, means (fst p) (f_name f) (f_width f) s x -> positional 256 v mod 2 ^ f_width f = x mod 2 ^ f_width f) /\
    (last_given (snd p) (f_name f) = None \/ find_field t (f_name f) <> Some f -> f_val f' = None).
Proof.
  intros p t j f HP Hj. destruct (hdr_for_helped _ _ HP) as [EH _]. rewrite EH. pose proof (hp_static _ _ HP) as HS. pose proof (nth_error_In _ _ Hj) as Hin.
  destruct (fold_assign_nth (snd p) t j f Hj) as [f' [K1 [[K2 [K3 [K4 K5]]] [_ [K6 K7]]]]]. exists f'. split; [exact K1|]. split; [exact K2|]. split; [exact K3|]. split; [exact K4|]. split; [exact K5|].
  assert (HF : find_field t (f_name f) = Some f -> first_named (h_fields t) j (f_name f)).
  { intros E. unfold find_field in E. destruct (POrigin.find_first _ _ _ _ E) as [j' [J1 [_ J3]]]. destruct (Nat.eq_dec j j') as [<-|Hne].
    - intros i g Hi Hg En. specialize (J3 i g Hi Hg). cbv beta in J3. rewrite En, String.eqb_refl in J3. discriminate.
    - destruct (s_distinct _ HS j j' f f Hj J1 Hne) as [Hr _]. exfalso. apply Hr. reflexivity. }
  assert (HF' : first_named (h_fields t) j (f_name f) -> find_field t (f_name f) = Some f) by (intros E; unfold find_field; eapply PAssign.find_first; eauto).
  split.
  - intros E s Hg. destruct (K6 (HF E)) as [V _]. rewrite Hg in V. destruct (hp_asg _ _ HP _ _ (last_given_in _ _ _ Hg)) as [g [x [G1 G2]]]. assert (g = f) by congruence. subst g.
    rewrite <- (hp_name _ _ HP) in *. destruct (means_static t (f_name f) f s x HS E G2) as [_ [_ [H5 [l [H6 H7]]]]]. apply keyword_facts in H5. exists l. split.
    + rewrite V. unfold text_val. rewrite is_ign_false by apply H5. destruct (s_fields _ HS f Hin) as [_ [_ [_ [_ [W _]]]]]. rewrite bytes_of_width by lia. rewrite H6. auto.
    + intros y HY. destruct (means_static t (f_name f) f s y HS E HY) as [_ [_ [_ [l' [J1 J2]]]]]. rewrite H6 in J1. apply ret_inj in J1. apply some_inj in J1. subst l'. auto.
  - pose proof (no_value_static t f HS Hin) as V0. destruct (first_namedb (h_fields t) j (f_name f)) eqn:Eb.
    + apply first_namedb_spec in Eb. intros [HN|HN]; [|exfalso; apply HN; auto]. destruct (K6 Eb) as [V _]. rewrite HN in V. congruence.
    + intros _. rewrite K7; auto. intros HFN. unfold first_namedb in Eb. apply negb_false_iff in Eb. apply existsb_exists in Eb. destruct Eb as [g [G1 G2]]. apply String.eqb_eq in G2. apply In_nth_error in G1. destruct G1 as [i Hi].
      assert (Hl : (i < length (firstn j (h_fields t)))%nat) by (apply nth_error_Some; congruence). rewrite firstn_length in Hl.
      apply (HFN i g); [lia| |exact G2]. rewrite <- Hi. rewrite <- (firstn_skipn j (h_fields t)) at 1. apply nth_error_app1. rewrite firstn_length. lia.
Qed.

(** *** All headers *)
Definition clear_names (hs : headers) (ps : list piece) : Prop := forall k p w t f, nth_error hs k = Some p -> nth_error (header_names hs ps) (S k) = Some w -> helped p t -> In f (h_fields t) -> f_name f <> w.

Lemma unambiguous_clear : forall hs ps, unambiguous hs ps -> clear_names hs ps.
Proof.
  intros hs ps HU k p w t f Hk Hw HP Hf E. apply (HU k p w Hk Hw). rewrite <- (hp_name _ _ HP).
  destruct (find_field t w) as [g|] eqn:Eg.
  - exists (f_off g), (f_width g). apply documented_static; [apply HP|]. eauto.
  - exfalso. unfold find_field in Eg. apply (find_none _ _ Eg) in Hf. rewrite E, String.eqb_refl in Hf. discriminate.
Qed.

Lemma clear_tail : forall p hs ps, clear_names (p :: hs) ps -> clear_names hs ps.
Proof. intros p hs ps H k q w t f Hk Hw HP Hf. apply (H (S k) q w t f); auto. Qed.

Lemma header_words_plain : forallb (fun t => negb (existsb (String.eqb (h_name t)) ("name"%string :: keywords))) hdr_tmpls = true.
Proof. vm_compute. reflexivity. Qed.

Lemma helped_text : forall hs ps w r, Forall (fun p => exists t, helped p t) hs -> text hs ps = w :: r ->
  nth_error (header_names hs ps) 0 = Some w /\ existsb (String.eqb w) ("name"%string :: keywords) = false.
Proof.
  intros [|p hs] ps w r Hw E.
  - unfold text in E. cbn [flat_map app] in E. destruct ps as [|q ps]; [discriminate|]. cbn [payload_text] in E. injection E as E _. subst w. split; reflexivity.
  - apply Forall_inv in Hw. destruct Hw as [t HP]. unfold text in E. cbn [flat_map header_text app] in E. injection E as E _. subst w. split; [reflexivity|].
    pose proof header_words_plain as K. rewrite forallb_forall in K. specialize (K t (s_tmpl _ (hp_static _ _ HP))). apply negb_true_iff in K. rewrite <- (hp_name _ _ HP). exact K.
Qed.

Lemma helped_loop : forall hs ps fuel i stk, Forall (fun p => exists t, helped p t) hs -> clear_names hs ps -> Forall piece_ok ps -> (length (text hs ps) < fuel)%nat ->
  zlen stk + Z.of_nat (length (text hs ps)) <= 100 -> Z.of_nat (length (payload ps)) <= size_limit ->
  argc_frame_loop fuel (text hs ps) i (MkFrame stk 0 false) = Ret (Some (i + length (text hs ps), MkFrame (stk ++ stack_for hs ps) 0 false))%nat.
Proof.
  induction hs as [|p hs IH]; intros ps fuel i stk Hw HC Hok Hf Hs Hl.
  { unfold text, stack_for in *. cbn [flat_map map app] in *. apply payload_loop; auto. }
  pose proof (Forall_inv Hw) as [t HT]. pose proof (Forall_inv_tail Hw) as Hws. pose proof (hp_static _ _ HT) as HS.
  pose proof (helped_assignable p t HT) as HV.
  assert (E : text (p :: hs) ps = fst p :: words_of (snd p) ++ text hs ps) by (unfold text; cbn [flat_map header_text]; rewrite <- app_assoc; reflexivity).
  rewrite E in *. cbn [length] in *. rewrite app_length, words_length in *. destruct fuel as [|fuel]; [lia|]. cbn [argc_frame_loop].
  assert (Eh : String.eqb (fst p) "help" = false) by (rewrite <- (hp_name _ _ HT); apply tmpl_help; apply HS).
  pose proof (s_find _ HS) as EF. rewrite (hp_name _ _ HT) in EF.
  rewrite Eh, EF. cbn [fr_stack fr_padding fr_has_mask]. unfold FRAME_STACK_MAX. destruct (Z.leb_spec 100 (zlen stk)); [lia|].
  unfold parse_hdr. rewrite (s_parser _ HS). unfold hdr_parse_fields.
  destruct (hpf_assign (snd p) t (text hs ps) (S (length (words_of (snd p) ++ text hs ps))) t 0 false (tmpl_widths t (s_tmpl _ HS)) (like_refl t)) as [fuel' [Hf' EH]]; [intros; apply HV; auto|lia|].
  rewrite EH. rewrite (hpf_ends t); auto; [|apply fold_like; apply like_refl|].
  2:{ destruct (text hs ps) as [|w r] eqn:Et; [exact I|]. destruct (helped_text _ _ _ _ Hws Et) as [A B]. cbn [existsb] in B. apply orb_false_iff in B. destruct B as [_ B]. apply keyword_facts in B. split; [apply B|split; [apply B|]].
      intros f Hin. apply (HC 0%nat p w t f); auto. }
  cbn [bind orb]. assert (Em : existsb (fun q => is_ign (snd q)) (snd p) = false).
  { destruct (existsb _ _) eqn:Ex; auto. apply existsb_exists in Ex. destruct Ex as [[n v] [H1 H2]]. cbn [snd] in H2. destruct (HV n v H1). congruence. }
  rewrite Em. rewrite <- words_length. rewrite skipn_app, skipn_all, Nat.sub_diag. cbn [app skipn].
  rewrite IH; auto; [|eapply clear_tail; eauto|lia|rewrite zlen_app, zlen_cons, zlen_nil; lia].
  rewrite <- app_assoc, words_length. unfold stack_for. cbn [map app]. destruct (hdr_for_helped _ _ HT) as [E2 _]. rewrite E2.
  match goal with |- Ret (Some (?a, _)) = Ret (Some (?b, _)) => replace b with a by lia end. reflexivity.
Qed.

Lemma helped_accepted : forall hs ps, Forall (fun p => exists t, helped p t) hs -> clear_names hs ps -> Forall piece_ok ps -> Z.of_nat (length (text hs ps)) <= 100 -> Z.of_nat (length (payload ps)) <= size_limit ->
  argc_frame (text hs ps) = Ret (Some (length (text hs ps), MkFrame (stack_for hs ps) 0 false)).
Proof.
  intros hs ps Hw HC Hok Hl Hp. unfold argc_frame, FRAME_STACK_MAX, zlen. destruct (Z.ltb_spec 100 (Z.of_nat (length (text hs ps)))); [lia|].
  unfold empty_frame. rewrite helped_loop; auto.
Qed.

Lemma helped_regular : forall p t, helped p t -> regular (hdr_for p) = true /\ size_after (hdr_for p) = h_size (hdr_for p) /\ h_name (hdr_for p) <> "mld"%string.
Proof.
  intros p t HT. destruct (hdr_for_helped _ _ HT) as [_ [E1 [E2 E3]]]. pose proof (hp_static _ _ HT) as HS0.
  pose proof (s_steady _ HS0) as HS. pose proof (s_plain _ HS0) as HN. rewrite (hp_name _ _ HT) in HN. cbn [existsb] in HN. rewrite !orb_false_iff in HN. destruct HN as [N1 [N2 [N3 [N4 [N5 _]]]]].
  split; [unfold regular; rewrite E3; destruct (h_fill t); auto; discriminate|]. split.
  - unfold size_after. rewrite E1, N1, N2, N3, N5. auto.
  - rewrite E1. apply String.eqb_neq. auto.
Qed.

Lemma stack_regular : forall hs ps, Forall (fun p => exists t, helped p t) hs ->
  Forall (fun h => regular h = true) (stack_for hs ps) /\ map size_after (stack_for hs ps) = map h_size (stack_for hs ps) /\ Forall (fun h => h_name h <> "mld"%string) (stack_for hs ps).
Proof.
  intros hs ps Hw.
  assert (HP : Forall (fun h => regular h = true /\ size_after h = h_size h /\ h_name h <> "mld"%string) (stack_for hs ps)).
  { apply Forall_app. split.
    - apply Forall_forall. intros h Hh. apply in_map_iff in Hh. destruct Hh as [p [<- Hp]]. rewrite Forall_forall in Hw. destruct (Hw p Hp) as [t HT]. eapply helped_regular; eauto.
    - destruct ps as [|q ps]; [constructor|]. constructor; [|constructor]. split; [reflexivity|split; [reflexivity|discriminate]]. }
  split; [eapply Forall_impl; [|exact HP]; intros h H; apply H|split; [|eapply Forall_impl; [|exact HP]; intros h H; apply H]].
  apply map_ext_in. intros h Hh. rewrite Forall_forall in HP. apply HP. auto.
Qed.

Lemma stack_modest : forall hs ps, Forall (fun p => exists t, helped p t) hs -> Z.of_nat (length (text hs ps)) <= 100 -> Z.of_nat (length (payload ps)) <= 134000000 ->
  modest (stack_for hs ps).
Proof.
  intros hs ps Hw Hl Hp. unfold modest, stack_for. fold (bulk_of (map hdr_for hs ++ payload_hdr ps)). rewrite bulk_app.
  assert (H1 : bulk_of (map hdr_for hs) <= 204 * Z.of_nat (length hs)).
  { clear Hl. induction Hw as [|p hs Hp1 Hw IH]; [cbn; lia|]. cbn [map bulk_of fold_right length]. fold (bulk_of (map hdr_for hs)). destruct Hp1 as [t HT]. destruct (hdr_for_helped _ _ HT) as [_ [_ [E _]]]. pose proof (s_size _ (hp_static _ _ HT)). lia. }
  assert (H2 : bulk_of (payload_hdr ps) <= Z.of_nat (length (payload ps)) + 4).
  { destruct ps as [|q ps]; [cbn; lia|]. cbn [payload_hdr bulk_of fold_right]. change (h_size (raw (payload (q :: ps)))) with (zlen (payload (q :: ps))). unfold zlen. lia. }
  pose proof (text_long hs ps). lia.
Qed.

Lemma helped_serialised : forall hs ps, Forall (fun p => exists t, helped p t) hs -> clear_names hs ps -> Forall piece_ok ps -> Z.of_nat (length (text hs ps)) <= 100 -> Z.of_nat (length (payload ps)) <= 134000000 ->
  exists f' b, serialised (text hs ps) (MkFrame (stack_for hs ps) 0 false) f' b.
Proof.
  intros hs ps Hw HC Hok Hl Hp. pose proof (helped_accepted hs ps Hw HC Hok Hl ltac:(unfold size_limit; lia)) as HA.
  destruct (stack_regular hs ps Hw) as [HR [_ HM]].
  destruct (serialise_exact _ _ _ HA HR (stack_modest hs ps Hw Hl Hp)) as [[[k [h [H1 [H2 _]]]] _]|[_ [f' [b H]]]].
  - exfalso. cbn [fr_stack] in H1. rewrite Forall_forall in HM. apply (HM h); auto. eapply nth_error_In; eauto.
  - exists f', b. split; [eauto|split; auto].
Qed.

(** *** Places *)
Lemma starts_static : forall hs ps k S, Forall (fun p => exists t, helped p t) hs -> (k <= length hs)%nat -> starts_at hs k S -> S = 8 * start_of (stack_for hs ps) k.
Proof.
  intros hs ps k S Hw Hk [Bs [HF ->]]. unfold start_of, stack_for. rewrite firstn_app, map_length. replace (k - length hs)%nat with 0%nat by lia. cbn [firstn]. rewrite app_nil_r, firstn_map.
  assert (Hw' : Forall (fun p => exists t, helped p t) (firstn k hs)) by (rewrite Forall_forall in *; intros p Hp; apply Hw; rewrite <- (firstn_skipn k hs); apply in_or_app; auto).
  clear Hw Hk. revert HF Hw'. generalize (firstn k hs). intros l HF. induction HF as [|p B l Bs HB HF IH]; intros Hw; [reflexivity|].
  pose proof (Forall_inv Hw) as [t HT]. rewrite <- (hp_name _ _ HT) in HB. apply header_ends_static in HB; [|apply HT]. unfold sum_sizes in *. cbn [map fold_right]. rewrite IH by (eapply Forall_inv_tail; eauto). destruct (hdr_for_helped _ _ HT) as [_ [_ [E _]]]. lia.
Qed.

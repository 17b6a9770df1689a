(** The invariant of a header while its words are parsed. *)

From Verif Require Import PParse PMatch SpecFrame.

(** *** Signature and layout of fields *)
Definition is_var (p : field_parser) : bool :=
  match p with
  | FP_coap_token | FP_profinet | FP_coap_opt_val | FP_coap_parms => true
  | _ => false
  end.

Definition is_pl (t : hdr) : bool := match h_parser t with HP_payload => true | _ => false end.

Definition fp_eqb (a b : field_parser) : bool :=
  match a, b with
  | FP_default, FP_default | FP_field_hex, FP_field_hex | FP_coap_code, FP_coap_code
  | FP_coap_token, FP_coap_token | FP_coap_opt_val, FP_coap_opt_val | FP_coap_parms, FP_coap_parms
  | FP_profinet, FP_profinet | FP_opc16, FP_opc16 => true
  | _, _ => false
  end.

Lemma fp_eqb_spec : forall a b, fp_eqb a b = true <-> a = b.
Proof. intros [] []; cbn; split; intro H; congruence || discriminate. Qed.

(** May the width of this field change while parsing? *)
Definition isv (t : hdr) (f : field) : bool := is_pl t || is_var (f_parser f).
Definition varhdr (t : hdr) : bool := existsb (isv t) (h_fields t).

Definition fsig (t : hdr) (f : field) : string * field_parser * option buf * Z :=
  (f_name f, f_parser f, f_def f, if isv t f then 0 else f_width f).
Definition lay (f : field) : Z * Z := (f_off f, f_width f).

Fixpoint seqok (l : list (Z * Z)) (p : Z) : Prop :=
  match l with
  | [] => True
  | (o, w) :: r => o = p /\ 0 <= w /\ seqok r (p + w)
  end.

Fixpoint seqokb (l : list (Z * Z)) (p : Z) : bool :=
  match l with
  | [] => true
  | (o, w) :: r => (o =? p) && (0 <=? w) && seqokb r (p + w)
  end.

Lemma seqokb_spec : forall l p, seqokb l p = true -> seqok l p.
Proof.
  induction l as [|[o w] r IH]; intros p H; cbn [seqokb seqok] in *; auto.
  rewrite !andb_true_iff in H. destruct H as [[H1 H2] H3]. repeat split; try lia. auto.
Qed.

Definition sumw (fs : list field) : Z := fold_right (fun f a => f_width f + a) 0 fs.

(** The data of a field is wide enough; a field of variable width, or of whole bytes,
    is as wide as its data; a CoAP token has one to eight bytes. *)
Definition whole (f : field) : Prop := is_var (f_parser f) = true \/ (f_width f mod 8 = 0 /\ f_width f <> 0).
Definition fok (f : field) : Prop :=
  forall v, field_data f = Some v -> f_width f <= 8 * zlen v /\ bytes_ok v /\ zlen v <= size_limit + 1 /\
            (whole f -> f_width f = 8 * zlen v) /\ (f_parser f = FP_coap_token -> 1 <= zlen v <= 8).

Definition fokb (f : field) : bool :=
  match field_data f with
  | Some v => (f_width f <=? 8 * zlen v) && forallb (fun x => (0 <=? x) && (x <? 256)) v && (zlen v <=? size_limit) &&
      (negb (is_var (f_parser f) || ((f_width f mod 8 =? 0) && negb (f_width f =? 0))) || (f_width f =? 8 * zlen v)) &&
      match f_parser f with FP_coap_token => (1 <=? zlen v) && (zlen v <=? 8) | _ => true end
  | None => true
  end.

Lemma fokb_spec : forall f, fokb f = true -> fok f.
Proof.
  intros f H v Hv. unfold fokb in H. rewrite Hv in H. rewrite !andb_true_iff in H. destruct H as [[[[H1 H2] H3] H4] H5].
  split; [lia|]. split; [|split; [lia|split; [intros E; unfold whole in E; destruct (is_var (f_parser f)); lia|intros E; rewrite E in H5; lia]]]. apply Forall_forall. intros x Hx. rewrite forallb_forall in H2. specialize (H2 x Hx). unfold byte_ok. lia.
Qed.

Record inv (t h : hdr) : Prop := MkInv {
  i_name : h_name h = h_name t;
  i_type : h_type h = h_type t;
  i_fill : h_fill h = h_fill t;
  i_parser : h_parser h = h_parser t;
  i_sig : map (fsig t) (h_fields h) = map (fsig t) (h_fields t);
  i_fix : varhdr t = false -> map lay (h_fields h) = map lay (h_fields t) /\ h_size h = h_size t;
  i_var : varhdr t = true -> seqok (map lay (h_fields h)) 0 /\ sumw (h_fields h) <= 8 * h_size h /\
          Forall (fun f => isv t f = true -> f_width f mod 8 = 0) (h_fields h);
  i_size : 0 <= h_size h <= 2 * size_limit;
  i_val : Forall fok (h_fields h) }.

Lemma isv_not_tok : forall t f, isv t f = false -> f_parser f = FP_coap_token -> False.
Proof. intros t f H E. unfold isv in H. rewrite E, orb_true_r in H. discriminate. Qed.

Lemma isv_not_var : forall t f, isv t f = false -> whole f -> f_width f mod 8 = 0 /\ f_width f <> 0.
Proof. intros t f H [E|E]; [|exact E]. unfold isv in H. rewrite E, orb_true_r in H. discriminate. Qed.

(** *** What holds of every template *)
Definition names (fs : list field) : list string := map f_name fs.

Fixpoint nodupb (l : list string) : bool :=
  match l with
  | [] => true
  | x :: r => negb (existsb (String.eqb x) r) && nodupb r
  end.

Lemma nodupb_spec : forall l, nodupb l = true -> NoDup l.
Proof.
  induction l as [|x r IH]; intros H; [constructor|]. cbn [nodupb] in H. apply andb_true_iff in H. destruct H as [H1 H2].
  constructor; auto. intro Hin. rewrite negb_true_iff in H1.
  assert (existsb (String.eqb x) r = true) by (apply existsb_exists; exists x; split; auto; apply String.eqb_refl). congruence.
Qed.

Definition parser_at (fs : list field) (k : nat) : option field_parser := option_map f_parser (nth_error fs k).
Definition opt_fp_eqb (a b : option field_parser) : bool :=
  match a, b with Some x, Some y => fp_eqb x y | None, None => true | _, _ => false end.

(** Requirements of the special field parsers. *)
Definition field_chk (t : hdr) (f : field) : bool :=
  match f_parser f with
  | FP_default => true
  | FP_field_hex => 4 <=? BIT_TO_BYTE (f_width f)
  | FP_coap_code => f_width f =? 8
  | FP_opc16 => f_width f =? 16
  | FP_coap_token => opt_fp_eqb (parser_at (h_fields t) 5) (Some FP_coap_token)
  | FP_profinet => opt_fp_eqb (parser_at (h_fields t) 1) (Some FP_profinet)
  | FP_coap_opt_val => (length (h_fields t) =? 2)%nat && opt_fp_eqb (parser_at (h_fields t) 1) (Some FP_coap_opt_val)
  | FP_coap_parms => (length (h_fields t) =? 1)%nat && (h_size t =? 1)
  end.

(** Sum of the fixed widths. *)
Definition sigw (t : hdr) (fs : list field) : Z :=
  fold_right (fun f a => (if isv t f then 0 else f_width f) + a) 0 fs.

(** At most one field per variable parser. *)
Definition var_count (t : hdr) : nat := length (filter (isv t) (h_fields t)).

Definition tmpl_chk (t : hdr) : bool :=
  layoutb t && forallb fokb (h_fields t) && (0 <=? h_size t) && (h_size t <=? 4096) &&
  forallb (fun f => negb (is_some (f_val f)) && negb (f_skip f) && (0 <=? f_width f) &&
                    (if isv t f then negb (is_some (f_def f)) && (f_width f mod 8 =? 0) else true) && field_chk t f) (h_fields t) &&
  (if varhdr t then seqokb (map lay (h_fields t)) 0 && (sumw (h_fields t) <=? 8 * h_size t) &&
                    (sigw t (h_fields t) mod 8 =? 0) && (0 <=? sigw t (h_fields t)) && (sigw t (h_fields t) <=? 32768) && nodupb (names (h_fields t)) && (var_count t =? 1)%nat else true) &&
  (if is_pl t then (length (h_fields t) =? 1)%nat else true) &&
  match h_parser t with HP_none => false | HP_padding => (length (h_fields t) =? 0)%nat | _ => true end.

Lemma templates_chk : forallb tmpl_chk hdr_tmpls = true.
Proof. vm_compute. reflexivity. Qed.

Lemma tmpl_checked : forall t, In t hdr_tmpls -> tmpl_chk t = true.
Proof. intros t H. pose proof templates_chk as Hc. rewrite forallb_forall in Hc. auto. Qed.

Lemma tmpl_field : forall t f, tmpl_chk t = true -> In f (h_fields t) ->
  f_val f = None /\ f_skip f = false /\ 0 <= f_width f /\
  (isv t f = true -> f_def f = None /\ f_width f mod 8 = 0) /\ field_chk t f = true.
Proof.
  intros t f H Hin. unfold tmpl_chk in H. rewrite !andb_true_iff in H. destruct H as [[[[[[[_ _] _] _] H] _] _] _].
  rewrite forallb_forall in H. specialize (H f Hin). rewrite !andb_true_iff in H. destruct H as [[[[H1 H2] H3] H4] H5].
  split; [destruct (f_val f); [discriminate H1|auto]|]. split; [destruct (f_skip f); [discriminate H2|auto]|]. split; [lia|].
  split; auto. intros Hv. rewrite Hv in H4. apply andb_true_iff in H4. destruct H4 as [H4 H6]. split; [|lia].
  destruct (f_def f); [discriminate H4|auto].
Qed.

Lemma inv_init : forall t, In t hdr_tmpls -> inv t t.
Proof.
  intros t Hin. pose proof (tmpl_checked t Hin) as H. pose proof (fun f => tmpl_field t f H) as Hf.
  unfold tmpl_chk in H. rewrite !andb_true_iff in H. destruct H as [[[[[[[H1 H2] H3] H4] _] H6] H7] H8].
  constructor; auto.
  - intros Hv. rewrite Hv in H6. rewrite !andb_true_iff in H6. destruct H6 as [[[[[[H61 H62] _] _] _] _] _].
    split; [apply seqokb_spec; auto|]. split; [lia|]. apply Forall_forall. intros f Hi Hiv. apply Hf; auto.
  - split; [lia|]. pose proof (eq_refl size_limit) as E. unfold size_limit at 2 in E. lia.
  - apply Forall_forall. intros f Hi. apply fokb_spec. rewrite forallb_forall in H2. auto.
Qed.

(** *** Updates by name *)
Lemma mod_first_map : forall A (k : field -> A) n g fs, (forall f, k (g f) = k f) ->
  map k (mod_first n g fs) = map k fs.
Proof.
  intros A k n g fs H. induction fs as [|f r IH]; auto. cbn [mod_first]. destruct (String.eqb n (f_name f)); cbn [map]; congruence.
Qed.

Lemma mod_first_Forall : forall (P : field -> Prop) n g fs, (forall f, P f -> P (g f)) -> Forall P fs -> Forall P (mod_first n g fs).
Proof.
  intros P n g fs H HF. induction HF as [|f r Hf Hr IH]; [constructor|]. cbn [mod_first]. destruct (String.eqb n (f_name f)); constructor; auto.
Qed.

Lemma find_split : forall n fs f, find (fun x => String.eqb n (f_name x)) fs = Some f ->
  exists A B, fs = A ++ f :: B /\ f_name f = n /\ (forall g, mod_first n g fs = A ++ g f :: B) /\
              (forall x, In x A -> f_name x <> n).
Proof.
  intros n fs f. induction fs as [|x r IH]; intros H; [discriminate|]. cbn [find] in H.
  destruct (String.eqb n (f_name x)) eqn:E.
  - apply some_inj in H. subst x. exists [], r. apply String.eqb_eq in E. split; [auto|]. split; [auto|]. split; [|intros y []].
    intros g. cbn [mod_first app]. rewrite E, String.eqb_refl. auto.
  - destruct (IH H) as [A [B [H1 [H2 [H3 H4]]]]]. exists (x :: A), B. subst r. split; [auto|]. split; [auto|]. split.
    + intros g. cbn [mod_first app]. rewrite E. rewrite H3. auto.
    + intros y [->|Hy]; auto. apply String.eqb_neq in E. congruence.
Qed.

Lemma find_field_in : forall h n f, find_field h n = Some f -> In f (h_fields h) /\ f_name f = n.
Proof.
  intros h n f H. apply find_split in H. destruct H as [A [B [H1 [H2 _]]]]. split; auto. rewrite H1. apply in_or_app. right. left. auto.
Qed.

Lemma find_mod_first : forall n g fs f, (forall x, f_name (g x) = f_name x) ->
  find (fun x => String.eqb n (f_name x)) fs = Some f ->
  find (fun x => String.eqb n (f_name x)) (mod_first n g fs) = Some (g f).
Proof.
  intros n g fs f Hg. induction fs as [|x r IH]; intros H; [discriminate|]. cbn [find mod_first] in *.
  destruct (String.eqb n (f_name x)) eqn:E; cbn [find]; [rewrite Hg, E; congruence|rewrite E; auto].
Qed.

Lemma find_field_fmod : forall n g h f, (forall x, f_name (g x) = f_name x) ->
  find_field h n = Some f -> find_field (fmod n g h) n = Some (g f).
Proof. intros n g h f Hg H. unfold find_field, fmod in *. cbn. apply find_mod_first; auto. Qed.

Lemma mod_first_comp : forall n g k fs, (forall x, f_name (g x) = f_name x) ->
  mod_first n k (mod_first n g fs) = mod_first n (fun x => k (g x)) fs.
Proof.
  intros n g k fs Hg. induction fs as [|x r IH]; auto. cbn [mod_first]. destruct (String.eqb n (f_name x)) eqn:E; cbn [mod_first].
  - rewrite Hg, E. auto.
  - rewrite E, IH. auto.
Qed.

Lemma fmod_comp : forall n g k h, (forall x, f_name (g x) = f_name x) ->
  fmod n k (fmod n g h) = fmod n (fun x => k (g x)) h.
Proof. intros n g k h Hg. unfold fmod, set_fields. cbn. rewrite mod_first_comp; auto. Qed.

(** The signature decides which field a name denotes. *)
Lemma sig_find : forall t fs fs' n, map (fsig t) fs = map (fsig t) fs' ->
  option_map (fsig t) (find (fun x => String.eqb n (f_name x)) fs) =
  option_map (fsig t) (find (fun x => String.eqb n (f_name x)) fs').
Proof.
  intros t. induction fs as [|f r IH]; intros fs' n H; destruct fs' as [|f' r']; try discriminate; auto.
  cbn [map] in H. pose proof (f_equal (@List.hd _ (fsig t f)) H) as H1. cbn [List.hd] in H1.
  pose proof (f_equal (@List.tl _) H) as H2. cbn [List.tl] in H2. cbn [find].
  assert (Hn : f_name f = f_name f') by (unfold fsig in H1; congruence). rewrite Hn.
  destruct (String.eqb n (f_name f')); [cbn; congruence|]. auto.
Qed.

(** Field of the header, field of the template at the same place. *)
Lemma sig_in : forall t fs fs' f, map (fsig t) fs = map (fsig t) fs' -> In f fs ->
  exists f', In f' fs' /\ fsig t f = fsig t f'.
Proof.
  intros t fs fs' f H Hin. apply (in_map (fsig t)) in Hin. rewrite H in Hin. apply in_map_iff in Hin.
  destruct Hin as [f' [H1 H2]]. exists f'. auto.
Qed.

Lemma fsig_isv : forall t f f', fsig t f = fsig t f' -> isv t f = isv t f'.
Proof. intros t f f' H. unfold fsig in H. unfold isv. congruence. Qed.

(** What the template check says about a field of a header. *)
Lemma inv_field : forall t h f, In t hdr_tmpls -> inv t h -> In f (h_fields h) ->
  (isv t f = true -> f_def f = None) /\ (isv t f = false -> field_chk t f = true /\ 0 <= f_width f) /\
  (is_var (f_parser f) = true -> field_chk t f = true).
Proof.
  intros t h f Ht I Hin. destruct (sig_in _ _ _ _ (i_sig _ _ I) Hin) as [f' [Hin' Hs]].
  destruct (tmpl_field t f' (tmpl_checked _ Ht) Hin') as [_ [_ [Hw [Hv Hc]]]].
  pose proof (fsig_isv _ _ _ Hs) as Hi. rewrite <- Hi in Hv.
  assert (Hp : f_parser f = f_parser f') by (unfold fsig in Hs; congruence).
  assert (Hd : f_def f = f_def f') by (unfold fsig in Hs; congruence).
  split; [intro E; rewrite Hd; apply Hv; auto|]. split.
  - intro E. assert (Hww : f_width f = f_width f').
    { unfold fsig in Hs. rewrite <- Hi, E in Hs. congruence. }
    rewrite Hww. split; [|auto]. unfold field_chk in *. rewrite Hp, Hww. auto.
  - intro E. unfold field_chk in *. rewrite Hp in *. destruct (f_parser f'); try discriminate E; auto.
Qed.

(** *** Changes that keep signature and layout *)
Definition keeps (g : field -> field) : Prop :=
  forall f, f_name (g f) = f_name f /\ f_parser (g f) = f_parser f /\ f_def (g f) = f_def f /\
            f_width (g f) = f_width f /\ f_off (g f) = f_off f.

Lemma keeps_fsig : forall t g f, keeps g -> fsig t (g f) = fsig t f.
Proof. intros t g f H. destruct (H f) as [H1 [H2 [H3 [H4 H5]]]]. unfold fsig, isv. rewrite H1, H2, H3, H4. auto. Qed.

Lemma keeps_lay : forall g f, keeps g -> lay (g f) = lay f.
Proof. intros g f H. destruct (H f) as [H1 [H2 [H3 [H4 H5]]]]. unfold lay. rewrite H4, H5. auto. Qed.

Lemma sumw_lay : forall a b, map lay a = map lay b -> sumw a = sumw b.
Proof.
  induction a as [|f a IH]; intros [|g b] H; try discriminate; auto. cbn [map] in H.
  pose proof (f_equal (@List.hd _ (lay f)) H) as H1. cbn [List.hd] in H1.
  pose proof (f_equal (@List.tl _) H) as H2. cbn [List.tl] in H2.
  unfold sumw. cbn [fold_right]. fold (sumw a). fold (sumw b). rewrite (IH _ H2). unfold lay in H1. replace (f_width f) with (f_width g) by congruence. auto.
Qed.

Lemma inv_change : forall t h fs, inv t h ->
  map (fsig t) fs = map (fsig t) (h_fields h) -> map lay fs = map lay (h_fields h) -> Forall fok fs ->
  inv t (set_fields fs h).
Proof.
  intros t h fs I Hs Hl Hv. destruct I as [I1 I2 I3 I4 I5 I6 I7 I8 I9]. constructor; cbn [set_fields h_name h_type h_fill h_parser h_size h_fields]; auto.
  - congruence.
  - rewrite Hl. auto.
  - intros Hv'. destruct (I7 Hv') as [J1 [J2 J3]]. rewrite Hl, (sumw_lay _ _ Hl). split; [auto|split; [auto|]].
    clear - J3 Hs Hl. revert Hs Hl J3. generalize (h_fields h) as gs. induction fs as [|f r IH]; intros [|g gs] Hs Hl J3; try discriminate; constructor.
    + cbn [map] in *. pose proof (f_equal (@List.hd _ (fsig t f)) Hs) as H1. cbn [List.hd] in H1.
      pose proof (f_equal (@List.hd _ (lay f)) Hl) as H2. cbn [List.hd] in H2.
      rewrite (fsig_isv _ _ _ H1). apply Forall_inv in J3. unfold lay in H2. replace (f_width f) with (f_width g) by congruence. auto.
    + apply (IH gs).
      * exact (f_equal (@List.tl _) Hs).
      * exact (f_equal (@List.tl _) Hl).
      * apply Forall_inv_tail in J3. auto.
Qed.

Lemma inv_fmod : forall t h n g, inv t h -> keeps g -> (forall f, fok f -> fok (g f)) -> inv t (fmod n g h).
Proof.
  intros t h n g I Hk Hg. unfold fmod. apply inv_change; auto.
  - apply mod_first_map. intros f. apply keeps_fsig; auto.
  - apply mod_first_map. intros f. apply keeps_lay; auto.
  - apply mod_first_Forall; auto. apply (i_val _ _ I).
Qed.

(** Setting the value of the field found, with a value that is wide enough. *)
Lemma inv_set_val : forall t h n f o, inv t h -> find_field h n = Some f ->
  (forall v, o = Some v -> f_width f <= 8 * zlen v /\ bytes_ok v /\ zlen v <= size_limit + 1 /\
             (whole f -> f_width f = 8 * zlen v) /\ (f_parser f = FP_coap_token -> 1 <= zlen v <= 8)) ->
  (o = None -> fok (set_val None f)) ->
  inv t (fmod n (set_val o) h).
Proof.
  intros t h n f o I Hf Hv Hn. unfold fmod. apply inv_change; auto.
  - apply mod_first_map. intros x. apply keeps_fsig. intros y; repeat split.
  - apply mod_first_map. intros x. apply keeps_lay. intros y; repeat split.
  - unfold find_field in Hf. apply find_split in Hf. destruct Hf as [A [B [H1 [_ [H2 _]]]]]. rewrite H2.
    pose proof (i_val _ _ I) as J. rewrite H1 in J. apply Forall_app in J. destruct J as [J1 J2].
    apply Forall_app. split; auto. constructor; [|apply Forall_inv_tail in J2; auto].
    destruct o as [v|]; [|auto]. intros v' Hv'. unfold field_data in Hv'. cbn in Hv'. apply some_inj in Hv'. subst v'. cbn [set_val f_width f_parser]. auto.
Qed.

Lemma fok_none : forall f, fok (set_val None (set_def None f)).
Proof. intros f v H. discriminate H. Qed.

(** Clearing a value leaves the default, which is wide enough. *)
Lemma inv_clear : forall t h n f, In t hdr_tmpls -> inv t h -> find_field h n = Some f -> fok (set_val None f).
Proof.
  intros t h n f Ht I Hf. apply find_field_in in Hf. destruct Hf as [Hin _].
  destruct (inv_field _ _ _ Ht I Hin) as [Hd _].
  intros v Hv. unfold field_data in Hv. cbn in Hv.
  destruct (isv t f) eqn:E; [rewrite Hd in Hv by auto; discriminate|].
  destruct (sig_in _ _ _ _ (i_sig _ _ I) Hin) as [f' [Hin' Hs]].
  pose proof (i_val _ _ (inv_init t Ht)) as J. rewrite Forall_forall in J. specialize (J f' Hin' v).
  destruct (tmpl_field t f' (tmpl_checked _ Ht) Hin') as [Hnv _].
  pose proof (fsig_isv _ _ _ Hs) as Hi. unfold fsig in Hs. rewrite <- Hi, E in Hs.
  unfold field_data in J. rewrite Hnv in J. unfold whole in *. cbn [set_val f_width f_parser].
  replace (f_parser f) with (f_parser f') by congruence. replace (f_width f) with (f_width f') by congruence. apply J. congruence.
Qed.

(** *** Changes of the variable field *)
Lemma sigw_sig : forall t a b, map (fsig t) a = map (fsig t) b -> sigw t a = sigw t b.
Proof.
  intros t. induction a as [|f a IH]; intros [|g b] H; try discriminate; auto. cbn [map] in H.
  pose proof (f_equal (@List.hd _ (fsig t f)) H) as H1. cbn [List.hd] in H1.
  pose proof (f_equal (@List.tl _) H) as H2. cbn [List.tl] in H2.
  unfold sigw. cbn [fold_right]. fold (sigw t a). fold (sigw t b). rewrite (IH _ H2). unfold fsig in H1. congruence.
Qed.

Lemma filter_sig : forall t a b, map (fsig t) a = map (fsig t) b ->
  length (filter (isv t) a) = length (filter (isv t) b).
Proof.
  intros t. induction a as [|f a IH]; intros [|g b] H; try discriminate; auto. cbn [map] in H.
  pose proof (f_equal (@List.hd _ (fsig t f)) H) as H1. cbn [List.hd] in H1.
  pose proof (f_equal (@List.tl _) H) as H2. cbn [List.tl] in H2.
  cbn [filter]. rewrite (fsig_isv _ _ _ H1). destruct (isv t g); cbn [length]; rewrite (IH _ H2); auto.
Qed.

Lemma names_sig : forall t a b, map (fsig t) a = map (fsig t) b -> names a = names b.
Proof.
  intros t a b H. apply (f_equal (map (fun x : string * field_parser * option buf * Z => fst (fst (fst x))))) in H.
  rewrite !map_map in H. exact H.
Qed.

Lemma tmpl_var : forall t, In t hdr_tmpls -> varhdr t = true ->
  sigw t (h_fields t) mod 8 = 0 /\ 0 <= sigw t (h_fields t) <= 32768 /\ NoDup (names (h_fields t)) /\
  length (filter (isv t) (h_fields t)) = 1%nat.
Proof.
  intros t Ht Hv. pose proof (tmpl_checked t Ht) as H. unfold tmpl_chk in H. rewrite Hv in H. rewrite !andb_true_iff in H.
  destruct H as [[[_ H] _] _]. destruct H as [[[[[[H1 H2] H3] H4] H5] H6] H7].
  split; [lia|]. split; [lia|]. split; [apply nodupb_spec; auto|]. apply Nat.eqb_eq in H7. auto.
Qed.

Lemma isv_varhdr : forall t h f, inv t h -> In f (h_fields h) -> isv t f = true -> varhdr t = true.
Proof.
  intros t h f I Hin Hv. destruct (sig_in _ _ _ _ (i_sig _ _ I) Hin) as [f' [Hin' Hs]].
  apply existsb_exists. exists f'. split; auto. rewrite <- (fsig_isv _ _ _ Hs). auto.
Qed.

Lemma var_unique : forall t h f g, In t hdr_tmpls -> inv t h -> In f (h_fields h) -> In g (h_fields h) ->
  isv t f = true -> isv t g = true -> f = g.
Proof.
  intros t h f g Ht I Hf Hg Vf Vg. pose proof (isv_varhdr _ _ _ I Hf Vf) as Hv.
  destruct (tmpl_var t Ht Hv) as [_ [_ [_ Hl]]]. rewrite <- (filter_sig _ _ _ (i_sig _ _ I)) in Hl.
  assert (Af : In f (filter (isv t) (h_fields h))) by (apply filter_In; auto).
  assert (Ag : In g (filter (isv t) (h_fields h))) by (apply filter_In; auto).
  destruct (filter (isv t) (h_fields h)) as [|x [|y r]]; cbn [length] in Hl; try lia.
  destruct Af as [->|[]]. destruct Ag as [->|[]]. auto.
Qed.

Lemma find_nodup : forall fs f, NoDup (names fs) -> In f fs ->
  find (fun x => String.eqb (f_name f) (f_name x)) fs = Some f.
Proof.
  induction fs as [|x r IH]; intros f Hn Hin; [destruct Hin|]. cbn [find]. inversion Hn; subst.
  destruct Hin as [->|Hin]; [rewrite String.eqb_refl; auto|].
  destruct (String.eqb (f_name f) (f_name x)) eqn:E; [|auto].
  apply String.eqb_eq in E. exfalso. apply H1. rewrite <- E. unfold names. apply in_map. auto.
Qed.

Lemma relayout_spec : forall t fs o, let '(fs', e) := relayout fs o in
  e = o + sumw fs /\ map (fsig t) fs' = map (fsig t) fs /\ map f_width fs' = map f_width fs /\
  (Forall (fun f => 0 <= f_width f) fs -> seqok (map lay fs') o) /\
  (Forall fok fs -> Forall fok fs') /\ length fs' = length fs /\
  (forall k f, nth_error fs k = Some f -> exists o', nth_error fs' k = Some (set_off o' f)).
Proof.
  intros t. induction fs as [|f r IH]; intros o; cbn [relayout].
  - unfold sumw; cbn. repeat split; auto; try lia. intros k f H. destruct k; discriminate.
  - specialize (IH (o + f_width f)). destruct (relayout r (o + f_width f)) as [r' e].
    destruct IH as [H1 [H2 [H3 [H4 [H5 [H6 H7]]]]]].
    split; [unfold sumw in *; cbn [fold_right]; lia|]. split; [cbn [map]; rewrite H2; auto|]. split; [cbn [map]; rewrite H3; auto|].
    split; [|split; [|split]].
    + intros Hw. cbn [map seqok lay set_off f_off f_width]. pose proof (Forall_inv Hw). apply Forall_inv_tail in Hw. auto.
    + intros Hv. constructor; [|apply H5; eapply Forall_inv_tail; eauto]. apply Forall_inv in Hv. exact Hv.
    + cbn [length]. congruence.
    + intros [|k] g Hg; [apply some_inj in Hg; subst; exists o; auto|]. apply H7. auto.
Qed.

Lemma seqok_widths : forall fs p, seqok (map lay fs) p -> Forall (fun f => 0 <= f_width f) fs.
Proof.
  induction fs as [|f r IH]; intros p H; [constructor|]. cbn [map seqok lay] in H. destruct H as [H1 [H2 H3]]. constructor; eauto.
Qed.

Lemma sumw_app : forall a b, sumw (a ++ b) = sumw a + sumw b.
Proof. induction a as [|f a IH]; intros b; cbn [app]; [reflexivity|]. unfold sumw in *. cbn [fold_right]. rewrite IH. lia. Qed.

Lemma sigw_app : forall t a b, sigw t (a ++ b) = sigw t a + sigw t b.
Proof. intros t. induction a as [|f a IH]; intros b; cbn [app]; [reflexivity|]. unfold sigw in *. cbn [fold_right]. rewrite IH. lia. Qed.

Lemma sumw_fixed : forall t fs, filter (isv t) fs = [] -> sumw fs = sigw t fs.
Proof.
  intros t. induction fs as [|f r IH]; intros H; auto. cbn [filter] in H. destruct (isv t f) eqn:E; [discriminate|].
  unfold sumw, sigw in *. cbn [fold_right]. rewrite E, IH; auto.
Qed.

Lemma nth_error_mid : forall A (l r : list A) x, nth_error (l ++ x :: r) (length l) = Some x.
Proof. intros A l r x. rewrite nth_error_app2, Nat.sub_diag by lia. auto. Qed.

Lemma inv_resize : forall t h k f w, In t hdr_tmpls -> inv t h -> nth_error (h_fields h) k = Some f ->
  isv t f = true -> f_val f = None -> 0 <= w -> w mod 8 = 0 -> w <= 8 * (size_limit + 40) ->
  inv t (resize_field k w h) /\
  exists f', find_field (resize_field k w h) (f_name f) = Some f' /\ f_width f' = w /\ f_parser f' = f_parser f.
Proof.
  intros t h k f w Ht I Hk Hv Hval Hw Hm Hlim.
  assert (Hin : In f (h_fields h)) by (eapply nth_error_In; eauto).
  pose proof (isv_varhdr _ _ _ I Hin Hv) as Hvar.
  destruct (tmpl_var t Ht Hvar) as [Hs1 [Hs2 [Hnd Hlen]]].
  destruct (nth_error_split _ _ Hk) as [A [B [HAB HlA]]].
  set (g := set_width w f).
  assert (HM : mod_nth k (set_width w) (h_fields h) = A ++ g :: B).
  { unfold mod_nth. rewrite Hk, HAB, <- HlA. apply upd_mid. }
  pose proof (i_sig _ _ I) as HS.
  assert (HSg : map (fsig t) (A ++ g :: B) = map (fsig t) (h_fields t)).
  { rewrite <- HS, HAB, !map_app. cbn [map]. f_equal. f_equal. unfold fsig, g, isv. cbn [set_width f_name f_parser f_def f_width].
    unfold isv in Hv. rewrite Hv. auto. }
  destruct (i_var _ _ I Hvar) as [J1 [J2 J3]].
  pose proof (filter_sig _ _ _ HSg) as HF. rewrite Hlen, filter_app in HF. cbn [filter] in HF.
  assert (Hvg : isv t g = true) by exact Hv. rewrite Hvg in HF. rewrite app_length in HF. cbn [length] in HF.
  assert (HFA : filter (isv t) A = []) by (destruct (filter (isv t) A); auto; cbn [length] in HF; lia).
  assert (HFB : filter (isv t) B = []) by (destruct (filter (isv t) B); auto; cbn [length] in HF; lia).
  assert (Hsum : sumw (A ++ g :: B) = sigw t (h_fields t) + w).
  { rewrite <- (sigw_sig _ _ _ HSg), sumw_app, sigw_app. unfold sumw at 2, sigw at 2. cbn [fold_right]. fold (sumw B). fold (sigw t B).
    rewrite Hvg, (sumw_fixed t A), (sumw_fixed t B) by auto. unfold g; cbn [set_width f_width]. lia. }
  assert (Hwid : Forall (fun f => 0 <= f_width f) (A ++ g :: B)).
  { apply seqok_widths in J1. rewrite HAB in J1. apply Forall_app in J1. destruct J1 as [J11 J12]. apply Forall_app. split; auto.
    constructor; [exact Hw|eapply Forall_inv_tail; eauto]. }
  assert (Hfok : Forall fok (A ++ g :: B)).
  { pose proof (i_val _ _ I) as J. rewrite HAB in J. apply Forall_app in J. destruct J as [J11 J12]. apply Forall_app. split; auto.
    constructor; [|eapply Forall_inv_tail; eauto]. intros v Hvv. unfold field_data, g in Hvv. cbn [set_width f_val f_def] in Hvv.
    rewrite Hval in Hvv. destruct (inv_field _ _ _ Ht I Hin) as [Hd _]. rewrite (Hd Hv) in Hvv. discriminate. }
  unfold resize_field. rewrite HM.
  pose proof (relayout_spec t (A ++ g :: B) 0) as HR. destruct (relayout (A ++ g :: B) 0) as [fs' e] eqn:ER.
  destruct HR as [R1 [R2 [R3 [R4 [R5 [R6 R7]]]]]].
  assert (He : e = sigw t (h_fields t) + w) by lia.
  assert (HS' : map (fsig t) fs' = map (fsig t) (h_fields t)) by congruence.
  split.
  - constructor; cbn [set_size set_fields h_name h_type h_fill h_parser h_size h_fields]; try apply I.
    + exact HS'.
    + intro E; congruence.
    + intros _. split; [auto|]. split.
      * assert (sumw fs' = sumw (A ++ g :: B)).
        { clear - R3. revert R3. generalize (A ++ g :: B) as l. induction fs' as [|x r IH]; intros [|y l] H; try discriminate; auto.
          cbn [map] in H. unfold sumw. cbn [fold_right]. fold (sumw r). fold (sumw l).
          pose proof (f_equal (@List.tl _) H) as H2. cbn [List.tl] in H2. rewrite (IH _ H2).
          pose proof (f_equal (@List.hd _ 0) H) as H1. cbn [List.hd] in H1. lia. }
        rewrite H, Hsum. lia.
      * apply Forall_forall. intros x Hx Hxv.
        destruct (In_nth_error _ _ Hx) as [j Hj].
        assert (Hj2 : exists y, nth_error (A ++ g :: B) j = Some y).
        { destruct (nth_error (A ++ g :: B) j) eqn:E; eauto. apply nth_error_None in E. rewrite <- R6 in E. apply nth_error_None in E. congruence. }
        destruct Hj2 as [y Hy]. destruct (R7 _ _ Hy) as [o' Ho']. rewrite Hj in Ho'. apply some_inj in Ho'. subst x.
        cbn [set_off f_width]. change (isv t (set_off o' y)) with (isv t y) in Hxv.
        apply nth_error_In in Hy. apply in_app_or in Hy. destruct Hy as [Hy|[Hy|Hy]].
        -- assert (In y (filter (isv t) A)) by (apply filter_In; auto). rewrite HFA in H. destruct H.
        -- subst y. exact Hm.
        -- assert (In y (filter (isv t) B)) by (apply filter_In; auto). rewrite HFB in H. destruct H.
    + pose proof (eq_refl size_limit) as E. unfold size_limit at 2 in E. lia.
    + auto.
  - assert (Hg : nth_error (A ++ g :: B) (length A) = Some g) by apply nth_error_mid.
    destruct (R7 _ _ Hg) as [o' Ho']. exists (set_off o' g). split; [|split; reflexivity].
    unfold find_field. cbn [set_size set_fields h_fields].
    change (f_name f) with (f_name (set_off o' g)). apply find_nodup.
    + rewrite (names_sig _ _ _ HS'). auto.
    + eapply nth_error_In; eauto.
Qed.

(** The variable field is the last one. *)
Lemma inv_last : forall t h A f f' b s, In t hdr_tmpls -> inv t h -> h_fields h = A ++ [f] -> isv t f = true ->
  f_name f' = f_name f -> f_parser f' = f_parser f -> f_def f' = f_def f -> f_off f' = f_off f ->
  f_val f' = Some b -> f_width f' = 8 * zlen b -> bytes_ok b -> zlen b <= size_limit + 1 ->
  sumw A + 8 * zlen b <= 8 * s -> 0 <= s <= 2 * size_limit -> f_parser f <> FP_coap_token ->
  inv t (set_size s (set_fields (A ++ [f']) h)).
Proof.
  intros t h A f f' b s Ht I HA Hv E1 E2 E3 E4 E5 E6 Hb Hlim Hs1 Hs2 Htok.
  assert (Hin : In f (h_fields h)) by (rewrite HA; apply in_or_app; right; left; auto).
  pose proof (isv_varhdr _ _ _ I Hin Hv) as Hvar.
  destruct (i_var _ _ I Hvar) as [J1 [J2 J3]]. pose proof (zlen_nonneg _ b) as Hb0.
  constructor; cbn [set_size set_fields h_name h_type h_fill h_parser h_size h_fields]; try apply I.
  - rewrite <- (i_sig _ _ I), HA, !map_app. cbn [map]. f_equal. f_equal. unfold fsig. unfold isv in *. rewrite E1, E2, E3.
    rewrite Hv. auto.
  - intro E. congruence.
  - intros _. split; [|split].
    + rewrite HA in J1. rewrite map_app in *. cbn [map] in *. revert J1. generalize 0 as p. induction A as [|x A IH]; intros p J1; cbn [map app seqok lay] in *.
      * rewrite E4, E6. intuition lia.
      * cbn [map app seqok lay] in J1. destruct J1 as [K1 [K2 K3]]. split; [auto|split; [auto|]].
        clear - IH K3 E4 E6 Hb0. revert K3. generalize (p + f_width x) as q. clear IH.
        induction A as [|y A IH]; intros q K3; cbn [map app seqok lay] in *; [rewrite E4, E6; intuition lia|intuition].
    + rewrite sumw_app. unfold sumw at 2. cbn [fold_right]. lia.
    + rewrite HA in J3. apply Forall_app in J3. destruct J3 as [J31 J32]. apply Forall_app. split; auto.
      constructor; [|constructor]. intros _. rewrite E6. lia.
  - auto.
  - pose proof (i_val _ _ I) as J. rewrite HA in J. apply Forall_app in J. destruct J as [J11 J12]. apply Forall_app. split; auto.
    constructor; [|constructor]. intros v Hvv. unfold field_data in Hvv. rewrite E5 in Hvv. apply some_inj in Hvv. subst v.
    split; [lia|split; [auto|split; [lia|split; [intros _; lia|congruence]]]].
Qed.

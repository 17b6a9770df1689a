(** Reading the parts of a frame (C82). *)

From Verif Require Import PTextIp PTextNum PTextHex PTextMac PTextAddr Frame PSer SpecParse PParse PMatch SpecFrame PFrame PInv PStep PArgs PSoft PFill PGroup PAll PSafe PAssign PField SpecOrigin POrigin PImage PSum PEmit SpecFill PCheck PCheck2 PLen PKeep PTwice PCoap PSegs PWords SpecLayout PLayout SpecWhole PWhole SpecExact SpecForm.

(** *** Assignments *)

(** What a field of template [f] gets from the text [s]. *)
Definition reads (f : field) (s : string) (v : buf) : Prop :=
  match f_parser f with
  | FP_coap_token => parse_var_bytes_hex s 1 = Ret (Some v) /\ 1 <= zlen v <= 8
  | FP_profinet => parse_var_bytes_hex s 40 = Ret (Some v) /\ zlen v <= size_limit
  | p => field_text p s (BIT_TO_BYTE (f_width f)) = Ret (Some v)
  end.

Lemma reads_fun : forall f s v v', reads f s v -> reads f s v' -> v = v'.
Proof. intros f s v v' H H'. unfold reads in *. destruct (f_parser f); try (congruence); destruct H, H'; congruence. Qed.

Definition vals (h : hdr) : list (string * option buf) := map (fun f => (f_name f, f_val f)) (h_fields h).

Fixpoint setv (n : string) (o : option buf) (l : list (string * option buf)) : list (string * option buf) :=
  match l with
  | [] => []
  | x :: r => if String.eqb n (fst x) then (fst x, o) :: r else x :: setv n o r
  end.

Lemma vals_set_val : forall n o h, vals (fmod n (set_val o) h) = setv n o (vals h).
Proof.
  intros n o h. unfold vals, fmod. cbn [set_fields h_fields]. induction (h_fields h) as [|f r IH]; [reflexivity|]. cbn [mod_first map setv fst].
  destruct (String.eqb n (f_name f)); cbn [map]; [reflexivity|]. rewrite IH. reflexivity.
Qed.

Lemma vals_set_skip : forall n o h, vals (fmod n (set_skip o) h) = vals h.
Proof. intros n o h. unfold vals, fmod. cbn [set_fields h_fields]. apply mod_first_map. reflexivity. Qed.

Lemma setv_twice : forall n o o' l, setv n o (setv n o' l) = setv n o l.
Proof.
  intros n o o' l. induction l as [|x r IH]; [reflexivity|]. cbn [setv]. destruct (String.eqb n (fst x)) eqn:E; cbn [setv fst]; rewrite E; [reflexivity|]. rewrite IH. reflexivity.
Qed.

Lemma relayout_vals : forall fs o, map (fun f => (f_name f, f_val f)) (fst (relayout fs o)) = map (fun f => (f_name f, f_val f)) fs.
Proof.
  induction fs as [|f r IH]; intros o; [reflexivity|]. cbn [relayout]. specialize (IH (o + f_width f)). destruct (relayout r (o + f_width f)) as [r' e]. cbn [fst map] in *. rewrite IH. reflexivity.
Qed.

Lemma upd_same_map : forall A (k : field -> A) fs n f g, nth_error fs n = Some f -> k g = k f -> map k (upd fs n g) = map k fs.
Proof.
  intros A k fs n f g Hn E. destruct (nth_error_split _ _ Hn) as [a [c [-> Hl]]]. rewrite <- Hl, BaseFacts.upd_mid, !map_app. cbn [map]. rewrite E. reflexivity.
Qed.

Lemma vals_resize : forall k w h, vals (resize_field k w h) = vals h.
Proof.
  intros k w h. unfold resize_field. pose proof (relayout_vals (mod_nth k (set_width w) (h_fields h)) 0) as E. destruct (relayout _ 0) as [fs o]. cbn [fst] in E.
  unfold vals. cbn [set_size set_fields h_fields]. rewrite E. unfold mod_nth. destruct (nth_error (h_fields h) k) as [f|] eqn:Ek; [|reflexivity]. eapply upd_same_map; [exact Ek|reflexivity].
Qed.

Lemma sumw_widths : forall a b, map f_width a = map f_width b -> sumw a = sumw b.
Proof.
  unfold sumw. induction a as [|x a IH]; intros [|y b] H; try discriminate; [reflexivity|]. cbn [map] in H. cbn [fold_right].
  pose proof (f_equal (@List.tl _) H) as H2. cbn [List.tl] in H2. rewrite (IH _ H2). pose proof (f_equal (@List.hd _ 0) H) as H1. cbn [List.hd] in H1. lia.
Qed.

Definition tight (h : hdr) : Prop := 8 * h_size h = sumw (h_fields h).

Lemma resize_size : forall k w h, h_size (resize_field k w h) = sumw (h_fields (resize_field k w h)) / 8.
Proof.
  intros k w h. unfold resize_field. pose proof (relayout_spec HDR_PAYLOAD (mod_nth k (set_width w) (h_fields h)) 0) as E. destruct (relayout _ 0) as [fs o].
  destruct E as [E1 [_ [E3 _]]]. cbn [set_size set_fields h_size h_fields]. rewrite (sumw_widths _ _ E3). f_equal. lia.
Qed.

Lemma fmod_lay : forall n g h, (forall f, lay (g f) = lay f) -> map lay (h_fields (fmod n g h)) = map lay (h_fields h) /\ h_size (fmod n g h) = h_size h.
Proof. intros n g h H. unfold fmod. cbn [set_fields h_fields h_size]. split; [apply mod_first_map; auto|auto]. Qed.

Lemma run_fixed : forall p h s k o, is_var p = false -> run_parser p h s k = Ret o -> fst o = h.
Proof.
  intros p h s k o Hv H. destruct p; try discriminate Hv; cbn [run_parser] in H;
    match type of H with bind ?x _ = _ => destruct x; [|discriminate] | _ => idtac end; cbn [bind] in H; apply ret_inj in H; subst o; reflexivity.
Qed.

Lemma read_step : forall t h n s ft v, In t hdr_tmpls -> inv t h -> is_pl t = false -> find_field t n = Some ft -> reads ft s v ->
  exists g h1, find_field h n = Some g /\ is_multi (f_parser g) = false /\
    run_parser (f_parser g) (fmod n (set_val None) h) s (BIT_TO_BYTE (f_width g)) = Ret (h1, Some v) /\
    let h' := fmod n (set_skip false) (fmod n (set_val (Some v)) h1) in
    inv t h' /\ vals h' = setv n (Some v) (vals h) /\
    (is_var (f_parser ft) = false -> map lay (h_fields h') = map lay (h_fields h) /\ h_size h' = h_size h) /\
    (is_var (f_parser ft) = true -> tight h').
Proof.
  intros t h n s ft v Ht I Hpl Hft HR. destruct (inv_find _ _ _ _ I Hft) as [g [Hg Hs]].
  pose proof (fsig_isv _ _ _ Hs) as Hi. unfold fsig in Hs. rewrite <- Hi in Hs.
  assert (Ep : f_parser g = f_parser ft) by congruence.
  assert (Hiv : isv t g = is_var (f_parser g)) by (unfold isv; rewrite Hpl; auto).
  assert (I0 : inv t (fmod n (set_val None) h)) by (apply (inv_set_val t h n g); auto; [discriminate|]; intros _; eapply inv_clear; eauto).
  assert (Eg0 : find_field (fmod n (set_val None) h) n = Some (set_val None g)) by (apply find_field_fmod; auto).
  assert (HX : is_multi (f_parser g) = false /\ exists h1, run_parser (f_parser g) (fmod n (set_val None) h) s (BIT_TO_BYTE (f_width g)) = Ret (h1, Some v) /\
     vals h1 = setv n None (vals h) /\ (is_var (f_parser ft) = true -> h_size h1 = sumw (h_fields h1) / 8)).
  { unfold reads in HR. rewrite Ep. rewrite Ep in Hiv. rewrite Hiv in Hs. clear Ep Hiv.
    assert (P : forall p, is_var p = false -> (if is_var p then 0 else f_width g) = (if is_var p then 0 else f_width ft) -> field_text p s (BIT_TO_BYTE (f_width ft)) = Ret (Some v) ->
      is_multi p = false /\ exists h1, run_parser p (fmod n (set_val None) h) s (BIT_TO_BYTE (f_width g)) = Ret (h1, Some v) /\
        vals h1 = setv n None (vals h) /\ (is_var p = true -> h_size h1 = sumw (h_fields h1) / 8)).
    { intros p Hv Ew HF. rewrite Hv in Ew. rewrite Ew. destruct (field_text_run p (fmod n (set_val None) h) _ _ _ HF) as [M R]. split; [auto|]. exists (fmod n (set_val None) h).
      split; [exact R|]. split; [apply vals_set_val|congruence]. }
    assert (Ew : (if is_var (f_parser ft) then 0 else f_width g) = (if is_var (f_parser ft) then 0 else f_width ft)) by congruence.
    destruct (f_parser ft); try (apply P; auto; fail); try discriminate HR; destruct HR as [H1 H2]; (split; [reflexivity|]); cbn [run_parser].
    - unfold coap_parse_token. rewrite H1. cbn [bind]. replace ((8 <? zlen v) || (zlen v =? 0)) with false by lia. eexists. split; [reflexivity|].
      split; [rewrite vals_resize; apply vals_set_val|]. intros _. apply resize_size.
    - unfold profinet_data_parser. rewrite H1. cbn [bind]. replace (size_limit <? zlen v) with false by lia. eexists. split; [reflexivity|].
      split; [rewrite vals_resize; apply vals_set_val|]. intros _. apply resize_size. }
  destruct HX as [HM [h1 [H1 [H2 H3]]]]. exists g, h1. split; [auto|]. split; [auto|]. split; [auto|]. cbv zeta.
  destruct (run_parser_ok t _ n (set_val None g) s Ht I0 Hpl Eg0 eq_refl HM) as [[c [E _]]|[h1' [o [E I1]]]]; cbn [set_val f_parser f_width] in E; rewrite H1 in E; [discriminate|].
  apply ret_inj, pair_inj in E. destruct E as [<- <-].
  assert (I2 : inv t (fmod n (set_skip false) (fmod n (set_val (Some v)) h1))) by (apply inv_fmod; [auto|apply keeps_set_skip|intros x; apply fok_set_skip]).
  destruct (fmod_lay n (set_skip false) (fmod n (set_val (Some v)) h1)) as [L1 L2]; [reflexivity|].
  destruct (fmod_lay n (set_val (Some v)) h1) as [L3 L4]; [reflexivity|].
  split; [exact I2|]. split; [rewrite vals_set_skip, vals_set_val, H2; apply setv_twice|]. split.
  - intros Hv. rewrite <- Ep in Hv. pose proof (run_fixed _ _ _ _ _ Hv H1) as E. cbn [fst] in E. subst h1. rewrite L1, L2, L3, L4. apply fmod_lay. reflexivity.
  - intros Hv. assert (Hvh : varhdr t = true). { apply (isv_varhdr t h g I); [apply (find_field_in _ _ _ Hg)|]. rewrite Hiv, Ep. auto. }
    destruct (i_var _ _ I2 Hvh) as [_ [J _]]. unfold tight. rewrite (sumw_lay _ _ L1), (sumw_lay _ _ L3) in *. rewrite L2, L4 in *. rewrite (H3 Hv) in *. lia.
Qed.

(** A list of assignments, with the values read. *)
Definition reading (t : hdr) (a : string * string) (v : string * buf) : Prop :=
  fst v = fst a /\ existsb (String.eqb (fst a)) keywords = false /\ existsb (String.eqb (snd a)) keywords = false /\
  exists ft, find_field t (fst a) = Some ft /\ reads ft (snd a) (snd v).

Definition no_var (t : hdr) (asg : list (string * string)) : Prop :=
  forall n s ft, In (n, s) asg -> find_field t n = Some ft -> is_var (f_parser ft) = false.

Definition set_all (vs : list (string * buf)) (l : list (string * option buf)) : list (string * option buf) :=
  fold_left (fun l v => setv (fst v) (Some (snd v)) l) vs l.

Lemma forall2_cons : forall A B (R : A -> B -> Prop) x y l r, Forall2 R (x :: l) (y :: r) -> R x y /\ Forall2 R l r.
Proof. intros A B R x y l r H. inversion H; auto. Qed.

Lemma read_all : forall asg vs t h fuel i rest pad mask, In t hdr_tmpls -> is_pl t = false -> inv t h -> Forall2 (reading t) asg vs ->
  exists h', inv t h' /\ vals h' = set_all vs (vals h) /\
    (no_var t asg -> map lay (h_fields h') = map lay (h_fields h) /\ h_size h' = h_size h) /\
    (tight h \/ ~ no_var t asg -> tight h') /\
    hpf_loop (length asg + fuel) (words_of asg ++ rest) i h pad mask = hpf_loop fuel rest (i + 2 * length asg) h' pad mask.
Proof.
  induction asg as [|[n s] asg IH]; intros vs t h fuel i rest pad mask Ht Hpl I HF.
  - assert (vs = []) by (inversion HF; auto). subst vs. exists h. split; [auto|]. split; [reflexivity|]. split; [auto|]. split.
    + intros [H|H]; [auto|]. exfalso. apply H. intros a c ft [].
    + cbn [words_of flat_map app length plus]. rewrite Nat.mul_0_r, Nat.add_0_r. reflexivity.
  - destruct vs as [|[n' v] vs]; [inversion HF|]. apply forall2_cons in HF. destruct HF as [[E [K1 [K2 [ft [Hft HR]]]]] HF]. cbn [fst snd] in *. subst n'.
    destruct (read_step t h n s ft v Ht I Hpl Hft HR) as [g [h1 [S1 [S2 [S3 [S4 [S5 [S6 S7]]]]]]]].
    set (h2 := fmod n (set_skip false) (fmod n (set_val (Some v)) h1)) in *.
    destruct (IH vs t h2 fuel (i + 2)%nat rest pad mask Ht Hpl S4 HF) as [h' [J1 [J2 [J3 [J4 J5]]]]]. exists h'. split; [auto|].
    split; [rewrite J2, S5; reflexivity|]. split; [|split].
    + intros NV. destruct J3 as [A1 A2]; [intros a c f Hin; apply (NV a c f); right; auto|]. destruct S6 as [B1 B2]; [eapply NV; [left; reflexivity|exact Hft]|]. split; congruence.
    + intros HT. apply J4. destruct (is_var (f_parser ft)) eqn:Ev; [left; apply S7; auto|]. destruct (S6 eq_refl) as [B1 B2]. destruct HT as [HT|HT].
      * left. unfold tight in *. rewrite B2, (sumw_lay _ _ B1). auto.
      * right. intros NV. apply HT. intros a c f [E|Hin] Hf; [apply pair_inj in E; destruct E; subst a c; congruence|eapply NV; eauto].
    + apply keyword_facts in K1, K2. destruct K1 as [K1 K1'], K2 as [K2 K2']. apply is_ign_false in K1', K2'. apply String.eqb_neq in K1, K2.
      cbn [words_of flat_map app length plus fst snd]. fold (words_of asg).
      rewrite (hpf_step _ n s _ i h pad mask g h1 (Some v)) by auto. fold h2. rewrite J5. f_equal. lia.
Qed.

(** *** Looking values up *)
Fixpoint lookup (l : list (string * option buf)) (n : string) : option buf :=
  match l with
  | [] => None
  | x :: r => if String.eqb n (fst x) then snd x else lookup r n
  end.

Lemma value_lookup : forall h fld, value_of h fld = lookup (vals h) fld.
Proof.
  intros h fld. unfold value_of, find_field, vals. induction (h_fields h) as [|f r IH]; [reflexivity|]. cbn [find map lookup fst snd].
  destruct (String.eqb fld (f_name f)); auto.
Qed.

Lemma lookup_setv : forall n o l m, lookup (setv n o l) m = if String.eqb m n then (if existsb (fun x => String.eqb n (fst x)) l then o else None) else lookup l m.
Proof.
  intros n o l m. induction l as [|x r IH]; cbn [setv existsb lookup]; [destruct (String.eqb m n); reflexivity|].
  destruct (String.eqb_spec n (fst x)) as [E|E]; cbn [lookup fst snd orb].
  - subst n. destruct (String.eqb_spec m (fst x)) as [E2|E2]; reflexivity.
  - rewrite IH. destruct (String.eqb_spec m n) as [E2|E2]; [subst m; apply String.eqb_neq in E; rewrite E; reflexivity|reflexivity].
Qed.

Lemma setv_names : forall n o l, map fst (setv n o l) = map fst l.
Proof. intros n o l. induction l as [|x r IH]; [reflexivity|]. cbn [setv]. destruct (String.eqb n (fst x)); cbn [map fst]; [reflexivity|]. rewrite IH. reflexivity. Qed.

Lemma exists_names : forall n (l l' : list (string * option buf)), map fst l = map fst l' -> existsb (fun x => String.eqb n (fst x)) l = existsb (fun x => String.eqb n (fst x)) l'.
Proof.
  intros n. induction l as [|x l IH]; intros [|y l'] H; try discriminate; [reflexivity|]. cbn [map] in H. cbn [existsb].
  pose proof (f_equal (@List.tl _) H) as H2. cbn [List.tl] in H2. rewrite (IH _ H2). pose proof (f_equal (@List.hd _ ""%string) H) as H1. cbn [List.hd] in H1. rewrite H1. reflexivity.
Qed.

Lemma value_given : forall t asg vs l fld, Forall2 (reading t) asg vs -> (forall x, In x (map fst l) <-> In x (names (h_fields t))) ->
  match last_given asg fld with
  | Some s => exists ft v, find_field t fld = Some ft /\ reads ft s v /\ lookup (set_all vs l) fld = Some v
  | None => lookup (set_all vs l) fld = lookup l fld
  end.
Proof.
  intros t asg vs l fld HF. revert l. induction HF as [|[n s] [n' v] asg vs [E [_ [_ [ft [Hft HR]]]]] HF IH]; intros l HN; [reflexivity|]. cbn [fst snd] in *. subst n'.
  cbn [last_given set_all fold_left fst snd]. fold (set_all vs (setv n (Some v) l)).
  specialize (IH (setv n (Some v) l)). assert (HN' : forall x, In x (map fst (setv n (Some v) l)) <-> In x (names (h_fields t))) by (rewrite setv_names; auto). specialize (IH HN').
  destruct (last_given asg fld) as [s'|] eqn:El.
  - destruct (String.eqb n fld); exact IH.
  - destruct (String.eqb_spec n fld) as [<-|Hne].
    + exists ft, v. split; [auto|]. split; [auto|]. rewrite IH, lookup_setv, String.eqb_refl.
      assert (Hx : existsb (fun x => String.eqb n (fst x)) l = true); [|rewrite Hx; reflexivity].
      assert (Hin : In n (map fst l)). { apply HN. destruct (find_field_in _ _ _ Hft) as [F1 F2]. rewrite <- F2. unfold names. apply in_map. auto. }
      apply in_map_iff in Hin. destruct Hin as [x [X1 X2]]. apply existsb_exists. exists x. split; [auto|]. rewrite X1. apply String.eqb_refl.
    + rewrite IH, lookup_setv. destruct (String.eqb_spec fld n); [congruence|reflexivity].
Qed.

Lemma nth_setv : forall n o l j x, nth_error l j = Some x -> (fst x <> n \/ exists i y, (i < j)%nat /\ nth_error l i = Some y /\ fst y = n) -> nth_error (setv n o l) j = Some x.
Proof.
  intros n o l. induction l as [|y r IH]; intros j x Hj HX; [destruct j; discriminate|]. cbn [setv]. destruct (String.eqb_spec n (fst y)) as [E|E].
  - destruct j as [|j]; [|exact Hj]. cbn in Hj. apply some_inj in Hj. subst y. destruct HX as [HX|[i [z [Hi _]]]]; [congruence|lia].
  - destruct j as [|j]; [exact Hj|]. cbn [nth_error] in *. apply IH; [auto|]. destruct HX as [HX|[i [z [Hi [Hz Ez]]]]]; [auto|]. right. destruct i as [|i]; [cbn in Hz; congruence|]. exists i, z. split; [lia|auto].
Qed.

(** A field behind another one of the same name keeps its value. *)
Lemma nth_set_all : forall vs l j x, nth_error l j = Some x -> (exists i y, (i < j)%nat /\ nth_error l i = Some y /\ fst y = fst x) -> nth_error (set_all vs l) j = Some x.
Proof.
  induction vs as [|[n v] vs IH]; intros l j x Hj HX; [exact Hj|]. cbn [set_all fold_left fst snd]. apply IH.
  - apply nth_setv; [auto|]. destruct (String.eqb_spec (fst x) n) as [E|E]; [right; rewrite <- E; exact HX|left; auto].
  - destruct HX as [i [y [Hi [Hy Ey]]]].
    assert (Hn : nth_error (map fst (setv n (Some v) l)) i = Some (fst x)) by (rewrite setv_names, nth_error_map, Hy, <- Ey; reflexivity).
    rewrite nth_error_map in Hn. destruct (nth_error (setv n (Some v) l) i) as [z|] eqn:Ez; [|discriminate]. cbn [option_map] in Hn. apply some_inj in Hn. exists i, z. auto.
Qed.

(** Reading expectations with ignored fields (C83). *)

From Verif Require Import PTextIp PTextNum PTextHex PTextMac PTextAddr Frame PSer SpecParse PParse PMatch SpecFrame PFrame PInv PStep PArgs PSoft PFill PGroup PAll PSafe PAssign PField SpecOrigin POrigin PImage PSum PEmit SpecFill PCheck PCheck2 PLen PKeep PTwice PCoap PSegs PWords SpecLayout PLayout Cmd Exec SpecExec PCmd PPair PExec PReplay SpecWhole PWhole SpecExact PExact SpecForm PForm PForm2 PForm3 PForm4 PForm5 SpecWish.

(** *** Lists with names, changed at the first entry of a name *)
Fixpoint over {A} (g : string -> A -> A) (seen : list string) (l : list (string * A)) : list (string * A) :=
  match l with
  | [] => []
  | x :: r => (fst x, if existsb (String.eqb (fst x)) seen then snd x else g (fst x) (snd x)) :: over g (fst x :: seen) r
  end.

Lemma over_over : forall A (g g' : string -> A -> A) l seen, over g seen (over g' seen l) = over (fun n b => g n (g' n b)) seen l.
Proof.
  intros A g g'. induction l as [|[n b] r IH]; intros seen; [reflexivity|]. cbn [over fst snd]. rewrite IH. destruct (existsb (String.eqb n) seen); reflexivity.
Qed.

Lemma over_ext : forall A (g g' : string -> A -> A) l seen, (forall n b, In (n, b) l -> g n b = g' n b) -> over g seen l = over g' seen l.
Proof.
  intros A g g'. induction l as [|[n b] r IH]; intros seen H; [reflexivity|]. cbn [over fst snd]. rewrite IH by (intros; apply H; right; auto). rewrite (H n b) by (left; auto). reflexivity.
Qed.

Lemma over_id : forall A (l : list (string * A)) seen g, (forall n b, In (n, b) l -> g n b = b) -> over g seen l = l.
Proof.
  intros A. induction l as [|[n b] r IH]; intros seen g H; [reflexivity|]. cbn [over fst snd]. rewrite IH by (intros; apply H; right; auto). rewrite (H n b) by (left; auto). destruct (existsb (String.eqb n) seen); reflexivity.
Qed.

Lemma over_seen : forall A (b : A) n l seen, In n seen -> over (fun x old => if String.eqb n x then b else old) seen l = l.
Proof.
  intros A b n. induction l as [|[x o] r IH]; intros seen H; [reflexivity|]. cbn [over fst snd]. rewrite IH by (right; auto).
  destruct (String.eqb_spec n x) as [<-|Hne]; [|destruct (existsb (String.eqb x) seen); reflexivity].
  assert (E : existsb (String.eqb n) seen = true) by (apply existsb_exists; exists n; split; [auto|apply String.eqb_refl]). rewrite E. reflexivity.
Qed.

Lemma over_one : forall A (b : A) n x o r seen, ~ In n seen -> over (fun x old => if String.eqb n x then b else old) seen ((x, o) :: r) =
  if String.eqb n x then (x, b) :: r else (x, o) :: over (fun x old => if String.eqb n x then b else old) (x :: seen) r.
Proof.
  intros A b n x o r seen H. cbn [over fst snd]. destruct (String.eqb_spec n x) as [<-|Hne].
  - rewrite over_seen by (left; auto). destruct (existsb (String.eqb n) seen) eqn:E; [|reflexivity]. apply existsb_exists in E. destruct E as [y [E1 E2]]. apply String.eqb_eq in E2. subst y. tauto.
  - destruct (existsb (String.eqb x) seen); reflexivity.
Qed.

Lemma setv_over : forall n o l seen, ~ In n seen -> setv n o l = over (fun x old => if String.eqb n x then o else old) seen l.
Proof.
  intros n o. induction l as [|[x y] r IH]; intros seen H; [reflexivity|]. rewrite over_one by auto. cbn [setv fst]. destruct (String.eqb_spec n x) as [E|E]; [reflexivity|].
  f_equal. apply IH. intros [K|K]; [congruence|tauto].
Qed.

(** *** The fields to be ignored *)
Definition skips (h : hdr) : list (string * bool) := map (fun f => (f_name f, f_skip f)) (h_fields h).

Lemma skips_set_skip : forall n o h, skips (fmod n (set_skip o) h) = over (fun x old => if String.eqb n x then o else old) [] (skips h).
Proof.
  intros n o h. unfold skips, fmod. cbn [set_fields h_fields]. assert (H : ~ In n []) by auto. revert H. generalize (@nil string) as seen.
  induction (h_fields h) as [|f r IH]; intros seen H; [reflexivity|]. cbn [mod_first map]. rewrite over_one by auto.
  destruct (String.eqb_spec n (f_name f)) as [E|E]; cbn [map set_skip f_name f_skip]; [reflexivity|]. f_equal. apply IH. intros [K|K]; [congruence|tauto].
Qed.

Lemma skips_set_val : forall n o h, skips (fmod n (set_val o) h) = skips h.
Proof. intros n o h. unfold skips, fmod. cbn [set_fields h_fields]. apply mod_first_map. reflexivity. Qed.

Lemma relayout_skips : forall fs o, map (fun f => (f_name f, f_skip f)) (fst (relayout fs o)) = map (fun f => (f_name f, f_skip f)) fs.
Proof.
  induction fs as [|f r IH]; intros o; [reflexivity|]. cbn [relayout]. specialize (IH (o + f_width f)). destruct (relayout r (o + f_width f)) as [r' e]. cbn [fst map] in *. rewrite IH. reflexivity.
Qed.

Lemma skips_resize : forall k w h, skips (resize_field k w h) = skips h.
Proof.
  intros k w h. unfold resize_field. pose proof (relayout_skips (mod_nth k (set_width w) (h_fields h)) 0) as E. destruct (relayout _ 0) as [fs o]. cbn [fst] in E.
  unfold skips. cbn [set_size set_fields h_fields]. rewrite E. unfold mod_nth. destruct (nth_error (h_fields h) k) as [f|] eqn:Ek; [|reflexivity]. eapply upd_same_map; [exact Ek|reflexivity].
Qed.

Lemma run_skips : forall p h s k h1 o, run_parser p h s k = Ret (h1, o) -> skips h1 = skips h.
Proof.
  intros p h s k h1 o H. destruct (is_var p) eqn:Ev; [|pose proof (run_fixed _ _ _ _ _ Ev H) as E; cbn [fst] in E; subst h1; reflexivity].
  destruct p; try discriminate Ev; cbn [run_parser] in H.
  all: try (unfold coap_parse_token in H); try (unfold profinet_data_parser in H).
  all: repeat match type of H with
    | bind ?x _ = _ => destruct x as [[?|]|]; cbn [bind] in H; try discriminate H
    | (if ?c then _ else _) = _ => destruct c; try discriminate H
    end; try (apply ret_inj, pair_inj in H; destruct H as [<- _]; try reflexivity; apply skips_resize).
Qed.

(** *** Values by name *)
Definition text_value (t : hdr) (n s : string) : option buf :=
  match find_field t n with
  | None => None
  | Some ft =>
      match (match f_parser ft with
             | FP_coap_token => parse_var_bytes_hex s 1
             | FP_profinet => parse_var_bytes_hex s 40
             | p => field_text p s (BIT_TO_BYTE (f_width ft))
             end) with Ret (Some v) => Some v | _ => None end
  end.

Lemma reads_value : forall t n ft s v, find_field t n = Some ft -> reads ft s v -> text_value t n s = Some v.
Proof.
  intros t n ft s v Hf H. unfold text_value. rewrite Hf. unfold reads in H. destruct (f_parser ft); try (rewrite H; reflexivity); destruct H as [-> _]; reflexivity.
Qed.

Definition by_text (t : hdr) (asg : list (string * string)) (n : string) (o : option buf) : option buf :=
  match last_given asg n with
  | Some s => if asks_ignore s then None else text_value t n s
  | None => o
  end.

Lemma keyword_ignore : forall s, existsb (String.eqb s) keywords = false -> asks_ignore s = false.
Proof.
  intros s H. apply keyword_facts in H. destruct H as [_ H]. apply is_ign_false in H. unfold is_ign in H. unfold asks_ignore. cbn [existsb]. rewrite orb_false_r. exact H.
Qed.

Lemma set_all_over : forall t asg vs, Forall2 (reading t) asg vs -> forall l, set_all vs l = over (by_text t asg) [] l.
Proof.
  intros t asg vs HF. induction HF as [|[n s] [n' v] asg vs [E [_ [K [ft [Hft HR]]]]] HF IH]; intros l.
  - cbn [set_all fold_left]. symmetry. apply over_id. reflexivity.
  - cbn [fst snd] in *. subst n'. cbn [set_all fold_left fst snd]. fold (set_all vs (setv n (Some v) l)). rewrite IH, (setv_over n (Some v) l []) by auto. rewrite over_over. apply over_ext.
    intros x b _. unfold by_text. cbn [last_given]. destruct (last_given asg x); [reflexivity|]. destruct (String.eqb_spec n x) as [<-|Hne]; [|reflexivity].
    rewrite (keyword_ignore _ K), (reads_value _ _ _ _ _ Hft HR). reflexivity.
Qed.

(** *** One header *)
Lemma ignore_facts : forall s, asks_ignore s = true -> is_ign s = true.
Proof. intros s H. unfold asks_ignore in H. cbn [existsb] in H. rewrite orb_false_r in H. exact H. Qed.

Lemma hpf_ignore : forall fuel n s rest i h pad mask g, existsb (String.eqb n) keywords = false -> asks_ignore s = true -> find_field h n = Some g ->
  hpf_loop (S fuel) (n :: s :: rest) i h pad mask = hpf_loop fuel rest (i + 2) (fmod n (set_skip true) (fmod n (set_val None) h)) pad true.
Proof.
  intros fuel n s rest i h pad mask g K1 K2 Hg. apply keyword_facts in K1. destruct K1 as [K1 K1']. apply is_ign_false in K1'. apply String.eqb_neq in K1.
  cbn [hpf_loop]. rewrite K1, K1', Hg, (ignore_facts _ K2). reflexivity.
Qed.

(** Every assignment can be read, or ignores a field that can be named. *)
Definition asking (t : hdr) (a : string * string) : Prop :=
  existsb (String.eqb (fst a)) keywords = false /\ exists ft, find_field t (fst a) = Some ft /\
  (asks_ignore (snd a) = true \/ (existsb (String.eqb (snd a)) keywords = false /\ exists v, reads ft (snd a) v)).

Definition fixed_texts (t : hdr) (asg : list (string * string)) : Prop :=
  forall n s ft, In (n, s) asg -> asks_ignore s = false -> find_field t n = Some ft -> is_var (f_parser ft) = false.

Definition by_word (asg : list (string * string)) (n : string) (b : bool) : bool :=
  match last_given asg n with Some s => asks_ignore s | None => b end.

Lemma ask_all : forall asg t h fuel i rest pad mask, In t hdr_tmpls -> is_pl t = false -> inv t h -> Forall (asking t) asg ->
  exists h' mask', inv t h' /\ vals h' = over (by_text t asg) [] (vals h) /\ skips h' = over (by_word asg) [] (skips h) /\
    (fixed_texts t asg -> map lay (h_fields h') = map lay (h_fields h) /\ h_size h' = h_size h) /\
    (tight h \/ ~ fixed_texts t asg -> tight h') /\
    hpf_loop (length asg + fuel) (words_of asg ++ rest) i h pad mask = hpf_loop fuel rest (i + 2 * length asg) h' pad mask'.
Proof.
  induction asg as [|[n s] asg IH]; intros t h fuel i rest pad mask Ht Hpl I HF.
  - exists h, mask. split; [auto|]. split; [symmetry; apply over_id; reflexivity|]. split; [symmetry; apply over_id; reflexivity|]. split; [auto|]. split.
    + intros [H|H]; [auto|]. exfalso. apply H. intros a c ft [].
    + cbn [words_of flat_map app length plus]. rewrite Nat.mul_0_r, Nat.add_0_r. reflexivity.
  - destruct (Forall_inv HF) as [K1 [ft [Hft HA]]]. cbn [fst snd] in *. apply Forall_inv_tail in HF.
    assert (W : exists h2 mask2, inv t h2 /\ vals h2 = setv n (if asks_ignore s then None else text_value t n s) (vals h) /\
      skips h2 = over (fun x old => if String.eqb n x then asks_ignore s else old) [] (skips h) /\
      (asks_ignore s = true \/ is_var (f_parser ft) = false -> map lay (h_fields h2) = map lay (h_fields h) /\ h_size h2 = h_size h) /\
      (asks_ignore s = false -> is_var (f_parser ft) = true -> tight h2) /\
      hpf_loop (S (length asg + fuel)) (n :: s :: words_of asg ++ rest) i h pad mask = hpf_loop (length asg + fuel) (words_of asg ++ rest) (i + 2) h2 pad mask2).
    { destruct HA as [HA|[K2 [v HR]]].
      - destruct (inv_find _ _ _ _ I Hft) as [g [Hg Hs]].
        assert (I0 : inv t (fmod n (set_val None) h)) by (apply (inv_set_val t h n g); auto; [discriminate|]; intros _; eapply inv_clear; eauto).
        exists (fmod n (set_skip true) (fmod n (set_val None) h)), true. rewrite HA.
        split; [apply inv_fmod; [auto|apply keeps_set_skip|intros x; apply fok_set_skip]|]. split; [rewrite vals_set_skip, vals_set_val; reflexivity|].
        split; [rewrite skips_set_skip, skips_set_val; reflexivity|]. split.
        + intros _. destruct (fmod_lay n (set_skip true) (fmod n (set_val None) h)) as [L1 L2]; [reflexivity|]. destruct (fmod_lay n (set_val None) h) as [L3 L4]; [reflexivity|]. split; congruence.
        + split; [discriminate|]. eapply hpf_ignore; eauto.
      - pose proof (keyword_ignore _ K2) as HI. destruct (read_step t h n s ft v Ht I Hpl Hft HR) as [g [h1 [S1 [S2 [S3 [S4 [S5 [S6 S7]]]]]]]].
        exists (fmod n (set_skip false) (fmod n (set_val (Some v)) h1)), mask. rewrite HI.
        split; [exact S4|]. split; [rewrite S5, (reads_value _ _ _ _ _ Hft HR); reflexivity|].
        split; [rewrite skips_set_skip, skips_set_val, (run_skips _ _ _ _ _ _ S3), skips_set_val; reflexivity|]. split; [intros [H|H]; [discriminate|auto]|]. split; [auto|].
        apply keyword_facts in K1, K2. destruct K1 as [K1 K1'], K2 as [K2 K2']. apply is_ign_false in K1', K2'. apply String.eqb_neq in K1, K2.
        apply (hpf_step _ n s _ i h pad mask g h1 (Some v)); auto. }
    destruct W as [h2 [mask2 [W1 [W2 [W3 [W4 [W5 W6]]]]]]].
    destruct (IH t h2 fuel (i + 2)%nat rest pad mask2 Ht Hpl W1 HF) as [h' [mask' [J1 [J2 [J3 [J4 [J5 J6]]]]]]]. exists h', mask'. split; [auto|].
    split; [|split; [|split; [|split]]].
    + rewrite J2, W2, (setv_over n _ _ []) by auto. rewrite over_over. apply over_ext. intros x b _. unfold by_text. cbn [last_given]. destruct (last_given asg x); [reflexivity|].
      destruct (String.eqb_spec n x) as [<-|Hne]; reflexivity.
    + rewrite J3, W3, over_over. apply over_ext. intros x b _. unfold by_word. cbn [last_given]. destruct (last_given asg x); [reflexivity|]. destruct (String.eqb_spec n x) as [<-|Hne]; reflexivity.
    + intros NV. destruct J4 as [A1 A2]; [intros a c f Hin; apply (NV a c f); right; auto|]. destruct W4 as [B1 B2].
      { destruct (asks_ignore s) eqn:Ei; [auto|]. right. eapply NV; [left; reflexivity|exact Ei|exact Hft]. }
      split; congruence.
    + intros HT. apply J5. destruct (asks_ignore s || negb (is_var (f_parser ft))) eqn:Ev.
      * destruct W4 as [B1 B2]; [apply orb_true_iff in Ev; rewrite negb_true_iff in Ev; exact Ev|]. destruct HT as [HT|HT].
        -- left. unfold tight in *. rewrite B2, (sumw_lay _ _ B1). auto.
        -- right. intros NV. apply HT. intros a c f [E|Hin] Hi Hf; [|eapply NV; eauto]. apply pair_inj in E; destruct E; subst a c. assert (f = ft) by congruence. subst f. rewrite Hi in Ev. cbn [orb] in Ev. apply negb_true_iff in Ev. exact Ev.
      * apply orb_false_iff in Ev. rewrite negb_false_iff in Ev. destruct Ev. left. auto.
    + cbn [words_of flat_map app length plus fst snd]. fold (words_of asg). rewrite W6, J6. f_equal. lia.
Qed.

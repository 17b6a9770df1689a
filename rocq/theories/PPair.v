(** Named frames (C39) and the grouping of commands by interface (C40). *)

From Coq Require Import Permutation.
From Verif Require Import PTextIp PTextNum Frame Exec SpecExec PParse PMatch PCmd.

(** *** Named frames *)
Lemma find_named_some : forall cs n d, find_named n cs = Some d -> first_definition cs n d.
Proof.
  induction cs as [|c cs IH]; intros n d H; [discriminate|]. cbn [find_named] in H.
  assert (K : ~ defines c n -> find_named n cs = Some d -> first_definition (c :: cs) n d).
  { intros Hn Hf. destruct (IH _ _ Hf) as [l [r [-> [H1 H2]]]]. exists (c :: l), r. split; [auto|split; [auto|]]. intros x [<-|Hx]; auto. }
  destruct (c_type c) eqn:Et; try (apply K; [unfold defines, is_name; rewrite Et; intros [X _]; discriminate|auto]; fail).
  destruct (c_buf c) eqn:Eb; [|apply K; [intros [_ [_ X]]; congruence|auto]].
  destruct (c_name c) as [m|] eqn:En; [|apply K; [intros [_ [X _]]; congruence|auto]].
  destruct (String.eqb_spec m n); [|apply K; [intros [_ [X _]]; congruence|auto]].
  assert (c = d) by congruence. subst. exists [], cs. split; [auto|]. split; [|intros x []]. unfold defines, is_name. rewrite Et, Eb. split; [auto|split; [auto|discriminate]].
Qed.

Lemma definedb_find : forall cs n, definedb cs n = is_some (find_named n cs).
Proof.
  induction cs as [|c cs IH]; intros n; [auto|]. unfold definedb in *. cbn [existsb find_named]. rewrite IH. unfold is_name. destruct (c_type c); cbn [cmd_type_eqb andb orb]; auto.
  destruct (c_buf c); cbn [is_some andb orb]; auto. destruct (c_name c) as [m|]; auto. destruct (String.eqb m n); auto.
Qed.

Lemma pair_one_spec : forall all c, pair_one all c =
  match reference c with
  | None => (c, 0, [])
  | Some n => match find_named n all with Some d => (with_frame_of d c, 0, []) | None => (c, 1, [EvNoName n]) end
  end.
Proof. intros all c. unfold pair_one, reference, is_name, with_frame_of. destruct (c_type c), (c_buf c), (c_name c); reflexivity. Qed.

Lemma reference_refers : forall c n, reference c = Some n <-> refers_to c n.
Proof.
  intros c n. unfold reference, refers_to. destruct (is_name c); [split; [discriminate|intros [X _]; discriminate]|]. destruct (c_buf c); [split; [discriminate|intros [_ [X _]]; discriminate]|].
  split; [auto|intros [_ [_ X]]; auto].
Qed.

Definition uref (all : list cmd) (c : cmd) : list string :=
  match reference c with Some n => if definedb all n then [] else [n] | None => [] end.

Definition pairs (all cs : list cmd) := fold_right (fun c '(r, e, ev) => let '(c1, e1, ev1) := pair_one all c in (c1 :: r, e1 + e, ev1 ++ ev)) ([], 0, []) cs.

Definition paired (all : list cmd) (c : cmd) : cmd := fst (fst (pair_one all c)).

Lemma pairs_spec : forall all cs, pairs all cs =
  (map (paired all) cs, Z.of_nat (length (flat_map (uref all) cs)), map EvNoName (flat_map (uref all) cs)).
Proof.
  intros all. induction cs as [|c cs IH]; [reflexivity|]. unfold pairs in *. cbn [fold_right]. rewrite IH. cbn [map flat_map].
  assert (HU : uref all c = match reference c with Some n => if definedb all n then [] else [n] | None => [] end) by auto.
  assert (HP : paired all c = fst (fst (pair_one all c))) by auto. rewrite HU, HP. clear HU HP IH.
  rewrite pair_one_spec. destruct (reference c) as [n|]; [|cbn [fst snd app]; f_equal; f_equal; lia].
  rewrite definedb_find. destruct (find_named n all); cbn [is_some fst snd app]; [f_equal; f_equal; lia|]. cbn [length map]. f_equal. f_equal. lia.
Qed.

Lemma pair_cmds_spec : forall cs, pair_cmds cs = (map (paired cs) cs, Z.of_nat (length (undefined_refs cs)), map EvNoName (undefined_refs cs)).
Proof. intros cs. apply (pairs_spec cs cs). Qed.

Lemma undefined_nil : forall cs c, undefined_refs cs = [] -> In c cs -> uref cs c = [].
Proof.
  intros cs c H Hc. unfold undefined_refs in H. fold (uref cs) in H. destruct (uref cs c) as [|x l] eqn:E; [auto|].
  assert (In x (flat_map (uref cs) cs)) by (apply in_flat_map; exists c; rewrite E; split; [auto|left; auto]).
  change (flat_map (uref cs) cs) with (undefined_refs cs) in H0. unfold undefined_refs in H0. fold (uref cs) in H0. rewrite H in H0. destruct H0.
Qed.

Lemma paired_filled : forall cs c, uref cs c = [] -> filled_in cs c (paired cs c).
Proof.
  intros cs c H. unfold filled_in, paired. rewrite pair_one_spec. unfold uref in H. split.
  - intros n Hn. apply reference_refers in Hn. rewrite Hn in *. rewrite definedb_find in H. destruct (find_named n cs) as [d|] eqn:E; [|discriminate].
    exists d. split; [apply find_named_some; auto|auto].
  - intros Hn. destruct (reference c) as [n|] eqn:E; [|auto]. apply reference_refers in E. destruct (Hn _ E).
Qed.

Lemma first_definition_unique : forall cs n d d', first_definition cs n d -> first_definition cs n d' -> d = d'.
Proof.
  intros cs n d d' [l [r [-> [H1 H2]]]] [l' [r' [E [H3 H4]]]]. revert l' E H4. induction l as [|x l IH]; intros l' E H4.
  - destruct l' as [|y l']; [cbn in E; congruence|]. cbn in E. assert (d = y) by congruence. subst y. destruct (H4 d); [left; auto|auto].
  - destruct l' as [|y l']; cbn in E.
    + assert (x = d') by congruence. subst. destruct (H2 d'); [left; auto|auto].
    + apply (IH (fun z Hz => H2 z (or_intror Hz)) l'); [congruence|]. intros z Hz. apply H4. right. auto.
Qed.

Lemma filled_unique : forall cs c c1 c2, filled_in cs c c1 -> filled_in cs c c2 -> c1 = c2.
Proof.
  intros cs c c1 c2 [A1 B1] [A2 B2]. destruct (reference c) as [n|] eqn:E.
  - apply reference_refers in E. destruct (A1 _ E) as [d [F1 ->]]. destruct (A2 _ E) as [d' [F2 ->]]. rewrite (first_definition_unique _ _ _ _ F1 F2). auto.
  - assert (forall n, ~ refers_to c n) by (intros n Hn; apply reference_refers in Hn; congruence). rewrite B1, B2; auto.
Qed.

Lemma Forall2_map_filled : forall all cs, (forall c, In c cs -> uref all c = []) -> Forall2 (filled_in all) cs (map (paired all) cs).
Proof. intros all. induction cs as [|c cs IH]; intros H; constructor; [apply paired_filled; apply H; left; auto|apply IH; intros; apply H; right; auto]. Qed.

Lemma Forall2_filled_eq : forall all cs cs1 cs2, Forall2 (filled_in all) cs cs1 -> Forall2 (filled_in all) cs cs2 -> cs1 = cs2.
Proof.
  intros all cs cs1 cs2 H. revert cs2. induction H as [|c c1 cs cs1 H1 H IH]; intros cs2 H2.
  - inversion H2. auto.
  - destruct cs2 as [|c2 cs2]; [inversion H2|]. assert (H3 : filled_in all c c2) by (inversion H2; auto). assert (H4 : Forall2 (filled_in all) cs cs2) by (inversion H2; auto).
    f_equal; [eapply filled_unique; eauto|auto].
Qed.

(** The pairs of the filled commands. *)
Lemma filled_reference : forall cs c c', Forall cmd_good cs -> filled_in cs c c' -> reference c' = None.
Proof.
  intros cs c c' HG [A B]. destruct (reference c) as [n|] eqn:E.
  - apply reference_refers in E. destruct (A _ E) as [d [[l [r [-> [[D1 [D2 D3]] _]]]] ->]]. unfold reference, with_frame_of. cbn. unfold is_name. cbn [c_type].
    destruct (cmd_type_eqb (c_type c) CT_name); auto. destruct (c_buf d); [auto|congruence].
  - rewrite B; auto. intros n Hn. apply reference_refers in Hn. congruence.
Qed.

Lemma filled_name_event : forall cs c c', filled_in cs c c' ->
  match c_type c, c_buf c, c_name c with CT_name, Some b, Some n => [EvName n b (c_mask c)] | _, _, _ => [] end =
  match c_type c', c_buf c', c_name c' with CT_name, Some b, Some n => [EvName n b (c_mask c')] | _, _, _ => [] end.
Proof.
  intros cs c c' [A B]. destruct (reference c) as [n|] eqn:E.
  - apply reference_refers in E. destruct (A _ E) as [d [_ ->]]. destruct E as [E1 [E2 E3]]. unfold is_name in E1. cbn. rewrite E2. destruct (c_type c); auto. discriminate.
  - rewrite B; auto. intros n Hn. apply reference_refers in Hn. congruence.
Qed.

Lemma filled_name_events : forall all cs cs', Forall2 (filled_in all) cs cs' -> name_events cs = name_events cs'.
Proof.
  intros all cs cs' H. induction H as [|c c' cs cs' H1 H IH]; [auto|]. unfold name_events in *. cbn [flat_map]. rewrite IH. f_equal. eapply filled_name_event; eauto.
Qed.

Lemma paired_self : forall all c, reference c = None -> paired all c = c.
Proof. intros all c H. unfold paired. rewrite pair_one_spec, H. auto. Qed.

Lemma undefined_none : forall all cs, Forall (fun c => reference c = None) cs -> flat_map (uref all) cs = [] /\ map (paired all) cs = cs.
Proof.
  intros all cs H. induction H as [|c cs H1 H [IH1 IH2]]; [auto|]. cbn [flat_map map]. rewrite IH1, IH2. split; [unfold uref; rewrite H1; auto|rewrite paired_self; auto].
Qed.

Lemma exec_filled : forall cs cs' e, Forall cmd_good cs -> undefined_refs cs = [] -> Forall2 (filled_in cs) cs cs' -> exec_cmds cs e = exec_cmds cs' e.
Proof.
  intros cs cs' e HG HU HF. unfold exec_cmds. rewrite !pair_cmds_spec.
  assert (HN : Forall (fun c => reference c = None) cs').
  { clear HU. assert (K : forall l l', Forall2 (filled_in cs) l l' -> Forall (fun c => reference c = None) l') by (intros l l' X; induction X; constructor; auto; eapply filled_reference; eauto). eauto. }
  destruct (undefined_none cs' cs' HN) as [HU' HP']. assert (HU2 : undefined_refs cs' = []) by exact HU'. rewrite HU, HU2, HP'.
  assert (E : map (paired cs) cs = cs'). { eapply Forall2_filled_eq; [|exact HF]. apply Forall2_map_filled. intros c Hc. apply undefined_nil; auto. }
  rewrite E. rewrite (filled_name_events _ _ _ HF). reflexivity.
Qed.

Lemma inventory_events : forall cs, Forall is_inventory (name_events cs).
Proof.
  intros cs. induction cs as [|c cs IH]; [constructor|]. unfold name_events in *. cbn [flat_map]. apply Forall_app. split; [|auto].
  destruct (c_type c); try constructor. destruct (c_buf c); try constructor. destruct (c_name c); repeat constructor.
Qed.

(** C39 *)
Lemma named_frames : forall ws cs e, parse_cmds ws = Ret (Some cs) ->
  (undefined_refs cs <> [] ->
    exists inv, Forall is_inventory inv /\ argc_cmds ws e = Ret (Z.of_nat (length (undefined_refs cs)), inv ++ map EvNoName (undefined_refs cs))) /\
  (undefined_refs cs = [] ->
    exists cs', Forall2 (filled_in cs) cs cs' /\ argc_cmds ws e = exec_cmds cs' e).
Proof.
  intros ws cs e H. destruct (parsed_good _ _ H) as [HG _]. split; intros HU.
  - exists (name_events cs). split; [apply inventory_events|]. unfold argc_cmds. rewrite H. cbn [bind]. unfold exec_cmds. rewrite pair_cmds_spec.
    destruct (Z.eqb_spec (Z.of_nat (length (undefined_refs cs))) 0) as [E|E]; [|reflexivity]. destruct (undefined_refs cs); [congruence|cbn [length] in E; lia].
  - exists (map (paired cs) cs). assert (HF : Forall2 (filled_in cs) cs (map (paired cs) cs)) by (apply Forall2_map_filled; intros c Hc; apply undefined_nil; auto). split; [auto|].
    unfold argc_cmds. rewrite H. cbn [bind]. eapply exec_filled; eauto.
Qed.

(** *** What filled-in commands look like *)
Record cmd_ready (c : cmd) : Prop := {
  y_done : c_done c = false;
  y_if : traffic c = true -> exists a, c_arg0 c = Some a;
  y_frame : forall b, c_buf c = Some b -> exists f, c_frame c = Some f;
  y_buf : c_buf c = None -> is_rx c = true \/ is_name c = true;
  y_mask : forall m, c_mask c = Some m -> exists b, c_buf c = Some b /\ length m = length b;
  y_rep : 0 <= c_repeat c < 2 ^ 32;
  y_bytes : forall b, c_buf c = Some b -> Forall is_byte b /\ 60 <= Z.of_nat (length b) <= size_limit }.

Lemma filled_ready : forall all c c', Forall cmd_good all -> cmd_good c -> filled_in all c c' -> cmd_ready c'.
Proof.
  intros all c c' HA [G1 G2 G3 G4 G5 G6 G7] HF. destruct HF as [A B]. destruct (reference c) as [n|] eqn:E.
  - apply reference_refers in E. destruct (A _ E) as [d [[l [r [-> [[D1 [D2 D3]] _]]]] ->]].
    apply Forall_app in HA. destruct HA as [_ HA]. apply Forall_inv in HA. destruct HA as [K1 K2 K3 K4 K5 K6 K7].
    constructor; cbn [with_frame_of c_done c_arg0 c_buf c_frame c_mask c_repeat]; auto.
  - rewrite B by (intros n Hn; apply reference_refers in Hn; congruence). constructor; auto. intros Hb. destruct (G4 Hb) as [X|X]; [auto|].
    unfold reference in E. rewrite Hb in E. destruct (is_name c); [auto|congruence].
Qed.

Lemma filled_all_ready : forall all cs cs', Forall cmd_good all -> Forall cmd_good cs -> Forall2 (filled_in all) cs cs' -> Forall cmd_ready cs' /\ length cs' = length cs.
Proof.
  intros all cs cs' HA HG H. induction H as [|c c' cs cs' H1 H IH]; [auto|]. pose proof (Forall_inv HG). pose proof (Forall_inv_tail HG). destruct (IH H2) as [I1 I2].
  split; [constructor; [exact (filled_ready all c c' HA H0 H1)|auto]|cbn [length]; lia].
Qed.

(** *** Grouping by interface *)
Lemma distinct_in : forall l x, In x (distinct l) <-> In x l.
Proof.
  induction l as [|y l IH]; intros x; [tauto|]. cbn [distinct In]. rewrite filter_In, IH. destruct (String.eqb_spec y x); cbn [negb]; intuition congruence.
Qed.

Lemma filter_negeq_app : forall (p : string -> bool) l x, filter p (l ++ [x]) = filter p l ++ (if p x then [x] else []).
Proof. intros p l x. rewrite filter_app. cbn [filter]. auto. Qed.

Lemma distinct_snoc : forall l x, distinct (l ++ [x]) = if existsb (String.eqb x) l then distinct l else distinct l ++ [x].
Proof.
  induction l as [|y l IH]; intros x; [reflexivity|]. cbn [app distinct existsb]. rewrite IH. destruct (String.eqb_spec x y) as [->|Hn].
  - cbn [orb]. destruct (existsb (String.eqb y) l); [auto|]. rewrite filter_negeq_app. rewrite String.eqb_refl. cbn [negb]. rewrite app_nil_r. auto.
  - cbn [orb]. destruct (existsb (String.eqb x) l); [auto|]. rewrite filter_negeq_app. replace (String.eqb y x) with false; [auto|]. symmetry. apply String.eqb_neq. congruence.
Qed.

Lemma distinct_nodup : forall l, NoDup (distinct l).
Proof.
  induction l as [|y l IH]; [constructor|]. cbn [distinct]. constructor.
  - rewrite filter_In. rewrite String.eqb_refl. intros [_ X]. discriminate.
  - apply NoDup_filter. auto.
Qed.

Lemma filter_le : forall A (p : A -> bool) l, (length (filter p l) <= length l)%nat.
Proof. induction l as [|x l IH]; [auto|]. cbn [filter]. destruct (p x); cbn [length]; lia. Qed.

Lemma distinct_le : forall l, (length (distinct l) <= length l)%nat.
Proof. induction l as [|y l IH]; [auto|]. cbn [distinct length]. pose proof (filter_le _ (fun z => negb (String.eqb y z)) (distinct l)). lia. Qed.

Lemma existsb_in : forall x l, existsb (String.eqb x) l = true <-> In x l.
Proof. intros x l. rewrite existsb_exists. split; [intros [y [H1 H2]]; apply String.eqb_eq in H2; subst; auto|]. intros H. exists x. split; [auto|apply String.eqb_refl]. Qed.

Definition fits (c : cmd) : Prop := traffic c = true -> exists a, c_arg0 c = Some a.

Lemma commands_on_snoc : forall ifn cs c, commands_on ifn (cs ++ [c]) = commands_on ifn cs ++ (if traffic c && on_if ifn c then [c] else []).
Proof. intros ifn cs c. unfold commands_on. rewrite filter_app. cbn [filter]. auto. Qed.

Lemma interfaces_snoc : forall cs c, interfaces (cs ++ [c]) =
  if traffic c then if existsb (String.eqb (interface_of c)) (interfaces cs) then interfaces cs else interfaces cs ++ [interface_of c] else interfaces cs.
Proof.
  intros cs c. unfold interfaces. rewrite filter_app. cbn [filter]. destruct (traffic c); [|rewrite app_nil_r; auto]. rewrite map_app. cbn [map]. rewrite distinct_snoc.
  assert (E : existsb (String.eqb (interface_of c)) (map interface_of (filter traffic cs)) = existsb (String.eqb (interface_of c)) (distinct (map interface_of (filter traffic cs)))).
  { apply eq_true_iff_eq. rewrite !existsb_in, distinct_in. tauto. }
  rewrite E. auto.
Qed.

Record grouped (cs : list cmd) (rs : list resource) : Prop := {
  gr_names : map r_name rs = interfaces cs;
  gr_cmds : forall r, In r rs -> r_cmds r = commands_on (r_name r) cs /\ r_err r = 0 /\ r_cmds r <> [] }.

Lemma add_to_none : forall c rs, add_to c rs = None <-> ~ In (str_of (c_arg0 c)) (map r_name rs).
Proof.
  intros c. induction rs as [|r rs IH]; [cbn; split; auto|]. cbn [add_to map In]. destruct (String.eqb_spec (str_of (c_arg0 c)) (r_name r)).
  - split; [discriminate|]. intros X. destruct X. auto.
  - destruct (add_to c rs) as [x|].
    + split; [discriminate|]. intros X. destruct IH as [_ IH]. assert (~ In (str_of (c_arg0 c)) (map r_name rs)) by tauto. specialize (IH H). discriminate.
    + split; [|auto]. intros _ [X|X]; [congruence|]. destruct IH as [IH _]. apply (IH eq_refl). auto.
Qed.

Lemma r_name_app : forall cs c e e', cs <> [] -> r_name (MkRes (cs ++ [c]) e) = r_name (MkRes cs e').
Proof. intros [|x cs] c e e' H; [congruence|]. reflexivity. Qed.

Lemma add_to_some : forall c rs rs', add_to c rs = Some rs' -> NoDup (map r_name rs) -> (forall r, In r rs -> r_cmds r <> []) ->
  map r_name rs' = map r_name rs /\
  forall r', In r' rs' -> exists r, In r rs /\ r_name r' = r_name r /\ r_err r' = r_err r /\
    r_cmds r' = r_cmds r ++ (if String.eqb (str_of (c_arg0 c)) (r_name r) then [c] else []).
Proof.
  intros c. induction rs as [|r rs IH]; intros rs' H HN HC; [discriminate|]. cbn [add_to] in H. destruct (String.eqb (str_of (c_arg0 c)) (r_name r)) eqn:E.
  - assert (rs' = MkRes (r_cmds r ++ [c]) (r_err r) :: rs) by congruence. subst rs'. assert (HE : r_name (MkRes (r_cmds r ++ [c]) (r_err r)) = r_name r).
    { rewrite (r_name_app _ _ _ (r_err r)) by (apply HC; left; auto). destruct r; auto. }
    split; [cbn [map]; rewrite HE; auto|]. intros r' [<-|Hr].
    + exists r. split; [left; auto|]. split; [auto|]. split; [auto|]. rewrite E. auto.
    + exists r'. split; [right; auto|]. split; [auto|]. split; [auto|]. cbn [map] in HN. apply NoDup_cons_iff in HN. destruct HN as [HN _].
      destruct (String.eqb_spec (str_of (c_arg0 c)) (r_name r')) as [E2|E2]; [|rewrite app_nil_r; auto]. apply String.eqb_eq in E. destruct HN. rewrite <- E, E2. apply in_map. auto.
  - destruct (add_to c rs) as [rs1|] eqn:E1; [|discriminate]. assert (rs' = r :: rs1) by congruence. subst rs'. cbn [map] in HN. apply NoDup_cons_iff in HN. destruct HN as [HN1 HN2].
    destruct (IH _ eq_refl HN2 (fun x Hx => HC x (or_intror Hx))) as [I1 I2]. split; [cbn [map]; congruence|]. intros r' [<-|Hr].
    + exists r. split; [left; auto|]. split; [auto|]. split; [auto|]. rewrite E, app_nil_r. auto.
    + destruct (I2 _ Hr) as [r0 [J1 J2]]. exists r0. split; [right; auto|auto].
Qed.

Lemma add_step : forall cs rs c, grouped cs rs -> fits c -> (length cs < 100)%nat ->
  exists rs', add_cmd_to_resource c rs = Ret rs' /\ grouped (cs ++ [c]) rs'.
Proof.
  intros cs rs c [G1 G2] HF HL. unfold add_cmd_to_resource.
  assert (HT : traffic c = match c_type c with CT_rx | CT_tx => true | _ => false end) by (unfold traffic, is_rx, is_tx; destruct (c_type c); auto).
  assert (HS : traffic c = false -> grouped (cs ++ [c]) rs).
  { intros T. constructor; [rewrite interfaces_snoc, T; auto|]. intros r Hr. rewrite commands_on_snoc, T. cbn [andb]. rewrite app_nil_r. auto. }
  destruct (traffic c) eqn:T; [|exists rs; split; [destruct (c_type c); auto; discriminate|auto]]. destruct (HF T) as [a Ha].
  assert (HI : interface_of c = a) by (unfold interface_of; rewrite Ha; auto). assert (HO : forall n, on_if n c = String.eqb a n) by (intros n; unfold on_if; rewrite Ha; auto).
  assert (HX : exists rs', match add_to c rs with Some rs' => Ret rs' | None => if zlen rs <? 100 then Ret (rs ++ [MkRes [c] 0]) else Crash Assert_fail end = Ret rs' /\ grouped (cs ++ [c]) rs').
  { destruct (add_to c rs) as [rs'|] eqn:E.
    - exists rs'. split; [auto|]. assert (HD : NoDup (map r_name rs)) by (rewrite G1; apply distinct_nodup).
      assert (HIn : In a (interfaces cs)).
      { rewrite <- G1. destruct (in_dec String.string_dec a (map r_name rs)) as [X|X]; [auto|]. assert (add_to c rs = None) by (apply add_to_none; rewrite Ha; auto). congruence. }
      destruct (add_to_some _ _ _ E HD (fun r Hr => proj2 (proj2 (G2 r Hr)))) as [A1 A2]. constructor.
      + rewrite A1, G1, interfaces_snoc, T, HI. replace (existsb (String.eqb a) (interfaces cs)) with true; [auto|]. symmetry. apply existsb_in. auto.
      + intros r' Hr'. destruct (A2 _ Hr') as [r [B1 [B2 [B3 B4]]]]. destruct (G2 _ B1) as [C1 [C2 C3]]. rewrite commands_on_snoc, T, HO, B2, B4, Ha, C1. cbn [str_of andb].
        split; [auto|]. split; [congruence|]. rewrite <- C1. destruct (r_cmds r); [congruence|discriminate].
    - assert (HNI : ~ In a (map r_name rs)) by (apply add_to_none in E; rewrite Ha in E; auto).
      assert (HZ : zlen rs < 100). { unfold zlen. rewrite <- (map_length r_name), G1. unfold interfaces. pose proof (distinct_le (map interface_of (filter traffic cs))). rewrite map_length in H. pose proof (filter_le _ traffic cs). lia. }
      replace (zlen rs <? 100) with true by lia. eexists. split; [reflexivity|]. assert (HRN : r_name (MkRes [c] 0) = a) by (unfold r_name; cbn; rewrite Ha; auto). constructor.
      + rewrite map_app. cbn [map]. rewrite HRN, G1, interfaces_snoc, T, HI. replace (existsb (String.eqb a) (interfaces cs)) with false; [auto|].
        symmetry. apply not_true_is_false. rewrite existsb_in. rewrite <- G1. auto.
      + intros r Hr. rewrite commands_on_snoc, T, HO. cbn [andb]. apply in_app_or in Hr. destruct Hr as [Hr|[<-|[]]].
        * destruct (G2 _ Hr) as [C1 [C2 C3]]. rewrite <- C1. replace (String.eqb a (r_name r)) with false; [rewrite app_nil_r; auto|]. symmetry. apply String.eqb_neq. intros ->. apply HNI. apply in_map. auto.
        * rewrite HRN, String.eqb_refl. cbn [r_cmds r_err]. split; [|split; [auto|discriminate]].
          assert (K : commands_on a cs = []).
          { unfold commands_on. destruct (filter (fun c0 => traffic c0 && on_if a c0) cs) as [|x l] eqn:E2; [auto|]. assert (In x (filter (fun c0 => traffic c0 && on_if a c0) cs)) by (rewrite E2; left; auto).
            apply filter_In in H. destruct H as [H1 H2]. apply andb_prop in H2. destruct H2 as [H2 H3]. destruct HNI. rewrite G1. unfold interfaces. apply distinct_in. apply in_map_iff.
            exists x. split; [unfold on_if in H3; unfold interface_of; destruct (c_arg0 x); [apply String.eqb_eq; auto|discriminate]|apply filter_In; auto]. }
          rewrite K. auto. }
  destruct (c_type c); try discriminate; exact HX.
Qed.

Lemma add_all_grouped : forall cs cs0 rs, grouped cs0 rs -> Forall fits cs -> (length cs0 + length cs <= 100)%nat ->
  exists rs', add_all cs rs = Ret rs' /\ grouped (cs0 ++ cs) rs'.
Proof.
  induction cs as [|c cs IH]; intros cs0 rs HG HF HL; cbn [add_all].
  - exists rs. rewrite app_nil_r. auto.
  - cbn [length] in HL. destruct (add_step _ _ _ HG (Forall_inv HF) ltac:(lia)) as [rs1 [E1 G1]]. rewrite E1. cbn [bind].
    destruct (IH _ _ G1 (Forall_inv_tail HF)) as [rs' [E2 G2]]; [rewrite app_length; cbn [length]; lia|]. exists rs'. rewrite <- app_assoc in G2. auto.
Qed.

(** C40 *)
Lemma grouping : forall cs, Forall fits cs -> (length cs <= 100)%nat -> exists rs, add_all cs [] = Ret rs /\ grouped cs rs.
Proof. intros cs HF HL. apply (add_all_grouped cs [] [] ltac:(constructor; [auto|intros r []]) HF HL). Qed.

Lemma names_in : forall cs x, In x (interfaces cs) <-> exists c, In c cs /\ traffic c = true /\ interface_of c = x.
Proof.
  intros cs x. unfold interfaces. rewrite distinct_in, in_map_iff. split.
  - intros [c [H1 H2]]. apply filter_In in H2. exists c. tauto.
  - intros [c [H1 [H2 H3]]]. exists c. rewrite filter_In. auto.
Qed.

Lemma flat_commands : forall (ns : list string) cs, NoDup ns -> (forall c, In c cs -> traffic c = true -> exists a, c_arg0 c = Some a /\ In a ns) ->
  Permutation (flat_map (fun n => commands_on n cs) ns) (filter traffic cs).
Proof.
  intros ns cs HN. induction cs as [|c cs IH]; intros HA.
  - cbn. induction ns as [|n ns IHn]; [auto|]. cbn. apply IHn. apply NoDup_cons_iff in HN. tauto. intros c [].
  - assert (IH' : Permutation (flat_map (fun n => commands_on n cs) ns) (filter traffic cs)) by (apply IH; intros; apply HA; [right; auto|auto]).
    cbn [filter]. destruct (traffic c) eqn:T.
    + destruct (HA c (or_introl eq_refl) T) as [a [Ha Hi]]. apply in_split in Hi. destruct Hi as [n1 [n2 ->]].
      assert (HO : forall n, commands_on n (c :: cs) = if String.eqb a n then c :: commands_on n cs else commands_on n cs).
      { intros n. unfold commands_on. cbn [filter]. rewrite T. unfold on_if at 1. rewrite Ha. cbn [andb]. auto. }
      assert (HD : forall l, ~ In a l -> flat_map (fun n => commands_on n (c :: cs)) l = flat_map (fun n => commands_on n cs) l).
      { induction l as [|n l IHl]; intros X; [auto|]. cbn [flat_map]. rewrite HO, IHl by (intros Y; apply X; right; auto). replace (String.eqb a n) with false; [auto|]. symmetry. apply String.eqb_neq. intros ->. apply X. left. auto. }
      pose proof (NoDup_remove_2 _ _ _ HN) as HR. rewrite in_app_iff in HR. rewrite flat_map_app in *. cbn [flat_map] in *. rewrite !HD by tauto. rewrite HO, String.eqb_refl.
      cbn [app]. rewrite <- Permutation_middle. constructor. auto.
    + assert (HO : forall n, commands_on n (c :: cs) = commands_on n cs) by (intros n; unfold commands_on; cbn [filter]; rewrite T; auto).
      erewrite flat_map_ext; [exact IH'|]. auto.
Qed.

Lemma one_socket_each : forall cs rs, Forall fits cs -> grouped cs rs -> Permutation (flat_map r_cmds rs) (filter traffic cs).
Proof.
  intros cs rs HF [G1 G2]. assert (E : flat_map r_cmds rs = flat_map (fun n => commands_on n cs) (interfaces cs)).
  { rewrite <- G1. clear G1. induction rs as [|r rs IH]; [auto|]. cbn [flat_map map]. rewrite IH by (intros; apply G2; right; auto). f_equal. apply G2. left. auto. }
  rewrite E. apply flat_commands; [apply distinct_nodup|]. intros c Hc T. rewrite Forall_forall in HF. destruct (HF c Hc T) as [a Ha]. exists a. split; [auto|].
  apply names_in. exists c. split; [auto|split; [auto|]]. unfold interface_of. rewrite Ha. auto.
Qed.

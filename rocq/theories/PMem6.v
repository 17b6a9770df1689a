(** Memory: start and end of the process; what a command line does as a whole. *)

From Verif Require Import SpecExec PCmd PPair.
From Verif Require Import SpecMem PMem PMem2 PMem3 PMem4 PMem5 BaseFacts.
From Coq Require Import Permutation.

Opaque hdr_tmpls.

Lemma runs_load_fields : forall fs H R, in_use H R ->
  runs H R (m_load_fields fs) (Ret tt) (fun _ l H' T => T = flat_map owned l /\ Forall2 (is_field H') l fs).
Proof.
  induction fs as [|f fs IH]; intros H R HU; cbn [m_load_fields].
  - eapply runs_ret with (T := []); [exact HU|]. split; auto.
  - eapply runs_then; [apply runs_new_buf; exact HU|]. intros d G1 T1 HU1 HT1 [-> HD].
    eapply runs_then; [apply runs_frame with (S := the d); apply runs_new_buf; exact HU1|]. intros v G2 T2 HU2 HT2 (T' & -> & (-> & HV) & HK2).
    eapply runs_then; [apply runs_frame with (S := the v ++ the d); apply IH; exact HU2|]. intros l G3 T3 HU3 HT3 (T' & -> & (-> & HL) & HK3).
    eapply runs_ret with (T := (the d ++ the v) ++ flat_map owned l); [eapply in_use_perm; [exact HU3|perm]|]. split; [reflexivity|]. constructor; auto.
    unfold is_field. cbn [mf_name mf_skip mf_width mf_off mf_parser mf_def mf_val]. repeat (split; [reflexivity|]).
    split; [eapply is_buf_stable; [exact HD|]; apply (untouched_trans _ G2 _); [via HK2|via HK3]|eapply is_buf_stable; [exact HV|via HK3]].
Qed.

Lemma runs_load_hdr : forall h H R, in_use H R ->
  runs H R (m_load_hdr h) (Ret tt) (fun _ a H' T => is_hdr true H' a h T).
Proof.
  intros h H R HU. unfold m_load_hdr. eapply runs_then; [apply runs_load_fields; exact HU|]. intros l G1 T1 HU1 HT1 [-> HL].
  destruct (h_fields h) as [|f fs] eqn:EF.
  - inversion HL; subst. eapply runs_step; [reflexivity|]. eapply runs_mono; [apply runs_place; exact HU1|].
    intros [] a G2 T2 HU2 HT2 [-> HA]. eexists. split; [exact HA|]. cbn. rewrite EF. repeat (split; [reflexivity|]). auto.
  - assert (HN : l <> []) by (intros ->; inversion HL).
    assert (HP : runs G1 R (a <~ place (BFields l);; ret (Some a)) (Ret tt)
       (fun _ p H' T => exists a, p = Some a /\ T = a :: flat_map owned l /\ holds H' a true (BFields l) /\ Forall2 (is_field H') l (f :: fs))).
    { eapply runs_then; [apply runs_frame with (S := flat_map owned l); apply runs_place; exact HU1|]. intros a G2 T2 HU2 HT2 (T' & -> & (-> & HA) & HK).
      eapply runs_ret; [exact HU2|]. exists a. split; auto. split; auto. split; auto. eapply fields_stable; [exact HL|exact HK]. }
    eapply runs_then; [exact HP|]. intros p G2 T2 HU2 HT2 (fa & -> & -> & HA & HL2).
    eapply runs_reorder; [apply runs_frame with (S := fa :: flat_map owned l); apply runs_place; exact HU2|].
    intros [] a G3 T3 HU3 HT3 (T' & -> & (-> & HH) & HK). exists (a :: fa :: flat_map owned l). split; [perm|].
    eexists. split; [exact HH|]. cbn [mh_name mh_type mh_size mh_fill mh_parser mh_fields]. repeat (split; [reflexivity|]).
    exists l. split; auto. split; [eapply holds_untouched; [exact HK|left; auto|exact HA]|]. split; auto. rewrite EF. eapply fields_stable; [exact HL2|via HK].
Qed.

Lemma runs_load_all : forall hs H R, in_use H R ->
  runs H R (m_load_all hs) (Ret tt) (fun _ l H' T => are_hdrs true H' l hs T).
Proof.
  induction hs as [|h hs IH]; intros H R HU; cbn [m_load_all].
  - eapply runs_ret with (T := []); [exact HU|]. constructor.
  - eapply runs_then; [apply runs_load_hdr; exact HU|]. intros a G1 T1 HU1 HT1 HA.
    eapply runs_then; [apply runs_frame with (S := T1); apply IH; exact HU1|]. intros l G2 T2 HU2 HT2 (T' & -> & HL & HK).
    eapply runs_ret with (T := T1 ++ T'); [eapply in_use_perm; [exact HU2|perm]|]. constructor; auto. eapply is_hdr_stable; [exact HA|exact HK].
Qed.

Lemma in_use_nil : in_use [] [].
Proof. split; [constructor|]. intros a. split; [intros []|]. intros (s & b & E). unfold holds in E. destruct a; discriminate. Qed.

(** C68: init *)
Lemma templates_loaded : exists tab H, m_load_all hdr_tmpls [] = MRet tab H /\ only_templates H tab.
Proof.
  destruct (runs_load_all hdr_tmpls [] [] in_use_nil) as (tab & H & T & E & HU & _ & HQ). exists tab, H. split; auto. exists T. split; auto.
  rewrite app_nil_r in HU. auto.
Qed.

(** ** Parsing and the rest of the command line *)

Lemma parse_cmds_memory : forall tab H S ws, are_hdrs true H tab hdr_tmpls S -> in_use H S ->
  runs H S (m_parse_cmds tab ws) (parse_cmds ws) cmds_out.
Proof. intros tab H S ws HT HU. unfold m_parse_cmds, parse_cmds. eapply runs_argc_cmds_loop; [exact HT|inc|exact HU]. Qed.

Lemma argc_cmds_memory : forall tab H S ws, are_hdrs true H tab hdr_tmpls S -> in_use H S ->
  runs H S (m_argc_cmds tab ws) (o <- parse_cmds ws;; Ret (match o with Some _ => true | None => false end))
    (fun y x _ T => x = y /\ (y = true -> T = [])).
Proof.
  intros tab H S ws HT HU. unfold m_argc_cmds. eapply runs_bind; [eapply parse_cmds_memory; eauto|].
  intros y x G1 T1 EY HU1 HT1 HO. destruct y as [cs|], x as [ms|]; cbn [cmds_out] in HO; try tauto.
  2:{ eapply runs_ret; [exact HU1|]. split; auto. discriminate. }
  assert (HFR : Forall framed ([] ++ cs)) by (eapply framed_loop; exact EY).
  eapply runs_then; [eapply (runs_pair_loop cs [] ms [] G1 S [] T1 HFR); [constructor|exact HO|exact HU1]|].
  intros [cs' e] G2 T2 HU2 HT2 [HQ _]. cbn [fst snd app] in *.
  eapply runs_then; [eapply runs_cleanup; [exact HQ|exact HU2]|]. intros [] G3 T3 HU3 HT3 ->.
  eapply runs_ret; [exact HU3|]. auto.
Qed.

(** ** uninit *)

Definition owns (H : heap) (a : addr) : Prop := exists b, holds H a false b.

Lemma all_static : forall S H a, (forall x, In x S -> exists b, holds H x true b) -> In a S -> ~ owns H a.
Proof. intros S H a HS HA (b & HB). destruct (HS a HA) as [b' HB']. unfold holds in *. congruence. Qed.

Lemma runs_uninit_loop : forall l fs H R, Forall2 (is_field H) l fs -> Forall (fun f => f_val f = None) fs ->
  in_use H (flat_map owned l ++ R) -> runs H R (m_uninit_loop l) (Ret tt) (fun _ _ _ T => T = []).
Proof.
  induction l as [|c l IH]; intros fs H R HF HV HU; inversion HF as [|c0 f0 l0 fs0 HC HL]; subst; cbn [m_uninit_loop].
  - eapply runs_ret with (T := []); auto.
  - cbn [flat_map] in HU. rewrite <- app_assoc in HU. pose proof (Forall_inv HV) as HV1. pose proof (Forall_inv_tail HV) as HV2.
    destruct HC as (_ & _ & _ & _ & _ & HD & HB). cbn beta in HV1. rewrite HV1 in HB. destruct (mf_val c) eqn:EV; cbn [is_buf] in HB; [tauto|].
    unfold owned in HU at 1. rewrite EV in HU. cbn [the] in HU. rewrite app_nil_r in HU.
    eapply runs_seq_free with (S2 := flat_map owned l) (Q := fun _ _ => True).
    + eapply runs_mono; [eapply runs_free_buf; [exact HU|exact HD]|]. auto.
    + intros [] G HG HT _. eapply IH; [|exact HV2|exact HG]. eapply fields_stable; [eauto|via HT].
Qed.

Definition no_val (h : hdr) : Prop := Forall (fun f => f_val f = None) (h_fields h).

Lemma runs_uninit_frame_data : forall H R a h S, is_hdr true H a h S -> no_val h -> in_use H (S ++ R) ->
  runs H R (m_uninit_frame_data a) (Ret tt) (fun _ _ H' T => forall x, In x T -> exists b, holds H' x true b).
Proof.
  intros H R a h S (m & HA & E1 & E2 & E3 & E4 & E5 & HF) HV HU. unfold m_uninit_frame_data.
  eapply runs_step; [eapply read_hdr_eq; exact HA|]. destruct (mh_fields m) as [fa|].
  - destruct HF as (l & HN & HL & HF & ->). eapply runs_step; [eapply read_fields_eq; exact HL|].
    eapply runs_mono; [apply runs_frame with (S := [a; fa]); eapply runs_uninit_loop; [exact HF|exact HV|eapply in_use_perm; [exact HU|perm]]|].
    intros [] [] G T _ _ (T' & -> & -> & HK) x HX. cbn [app] in HX. destruct HX as [<-|[<-|[]]].
    + eexists. eapply holds_untouched; [exact HK|left; auto|exact HA].
    + eexists. eapply holds_untouched; [exact HK|right; left; auto|exact HL].
  - destruct HF as [EN ->]. eapply runs_ret; [exact HU|]. intros x [<-|[]]. eauto.
Qed.

Lemma runs_uninit : forall skip tab hs H R S, are_hdrs true H tab hs S -> Forall no_val hs -> in_use H (S ++ R) ->
  runs H R (m_uninit skip tab) (Ret tt)
    (fun _ _ H' T => forall x, In x T -> owns H' x ->
       exists t h St, In (t, h) (combine tab hs) /\ skip (h_name h) = true /\ is_hdr true H' t h St /\ In x St).
Proof.
  intros skip. induction tab as [|a tab IH]; intros hs H R S HA HV HU; inversion HA as [|a0 h S1 l0 hs0 S2 HH HL]; subst; cbn [m_uninit].
  - eapply runs_ret with (T := []); [exact HU|]. intros x [].
  - pose proof (Forall_inv HV) as HV1. pose proof (Forall_inv_tail HV) as HV2.
    pose proof HH as (m & HM & EN & _). eapply runs_step; [eapply read_hdr_eq; exact HM|]. rewrite EN.
    assert (HFIRST : runs H (S2 ++ R) (if skip (h_name h) then ret tt else m_uninit_frame_data a) (Ret tt)
      (fun _ _ H' T => if skip (h_name h) then is_hdr true H' a h T else forall x, In x T -> exists b, holds H' x true b)).
    { destruct (skip (h_name h)).
      - eapply runs_ret; [rewrite app_assoc; exact HU|exact HH].
      - eapply runs_uninit_frame_data; [exact HH|exact HV1|rewrite app_assoc; exact HU]. }
    eapply runs_then; [apply runs_frame with (S := S2); exact HFIRST|]. intros [] G1 T1 HU1 HT1 (T' & -> & HO & HK).
    eapply runs_reorder; [apply runs_frame with (S := T'); eapply IH; [eapply are_hdrs_stable; [exact HL|exact HK]|exact HV2|eapply in_use_perm; [exact HU1|perm]]|].
    intros [] [] G2 T2 HU2 HT2 (T'' & -> & HO2 & HK2). exists (T' ++ T''). split; [perm|].
    intros x HX HMX. apply in_app_or in HX. destruct HX as [HX|HX].
    + destruct (skip (h_name h)) eqn:ES.
      * exists a, h, T'. split; [left; auto|]. split; auto. split; auto. eapply is_hdr_stable; [exact HO|exact HK2].
      * destruct (HO x HX) as [b HB]. destruct HMX as [b' HB']. unfold holds in HB, HB'. rewrite (HK2 x HX) in HB'. congruence.
    + destruct (HO2 x HX HMX) as (t & h' & St & A1 & A2 & A3 & A4). exists t, h', St. split; [right; auto|auto].
Qed.

Lemma runs_extend : forall A B H R (m : M A) (o : out B) Q, runs H R m o Q ->
  runs H [] m o (fun y x H' T => exists T', T = T' ++ R /\ Q y x H' T' /\ untouched H H' R).
Proof.
  intros A B H R m o Q HM. apply runs_frame with (R := []). eapply runs_perm; [exact HM|]. rewrite app_nil_r. reflexivity.
Qed.

Transparent hdr_tmpls.

Lemma tmpls_no_val : Forall no_val hdr_tmpls.
Proof.
  apply Forall_forall. intros h HH. unfold no_val. apply Forall_forall. intros f HF.
  assert (E : forallb (fun h => forallb (fun f => match f_val f with None => true | Some _ => false end) (h_fields h)) hdr_tmpls = true) by (vm_compute; reflexivity).
  rewrite forallb_forall in E. specialize (E h HH). rewrite forallb_forall in E. specialize (E f HF). destruct (f_val f); congruence.
Qed.

Definition no_def (h : hdr) : Prop := Forall (fun f => f_def f = None) (h_fields h).

Definition forgotten : list string := ["oam-lb"; "oam-lt"; "oam-raps"].

Lemma tmpls_forgotten : forall h, In h hdr_tmpls -> not_uninit (h_name h) = true -> In (h_name h) forgotten \/ no_def h.
Proof.
  intros h HH HN.
  assert (E : forallb (fun h => negb (not_uninit (h_name h)) || existsb (String.eqb (h_name h)) forgotten ||
    forallb (fun f => match f_def f with None => true | Some _ => false end) (h_fields h)) hdr_tmpls = true) by (vm_compute; reflexivity).
  rewrite forallb_forall in E. specialize (E h HH). rewrite HN in E. cbn [negb orb] in E. apply orb_true_iff in E. destruct E as [E|E].
  - left. apply existsb_exists in E. destruct E as (x & HX & EX). apply String.eqb_eq in EX. subst x. auto.
  - right. unfold no_def. apply Forall_forall. intros f HF. rewrite forallb_forall in E. specialize (E f HF). destruct (f_def f); congruence.
Qed.

Opaque hdr_tmpls.

Lemma bare_static : forall H a h S x, is_hdr true H a h S -> no_def h -> no_val h -> In x S -> ~ owns H x.
Proof.
  intros H a h S x (m & HA & _ & _ & _ & _ & _ & HF) HD HV HX (b & HB). destruct (mh_fields m) as [fa|].
  - destruct HF as (l & _ & HL & HF & ->). destruct HX as [<-|[<-|HX]]; [unfold holds in *; congruence|unfold holds in *; congruence|].
    unfold no_def, no_val in *. clear HA HL. revert HD HV HX. induction HF as [|c f l fs HC HF IH]; intros HD HV HX; [destruct HX|].
    cbn [flat_map] in HX. apply in_app_or in HX. destruct HX as [HX|HX]; [|apply IH; [exact (Forall_inv_tail HD)|exact (Forall_inv_tail HV)|exact HX]].
    pose proof (Forall_inv HD) as D. pose proof (Forall_inv HV) as V. cbn beta in D, V. destruct HC as (_ & _ & _ & _ & _ & BD & BV). rewrite D in BD. rewrite V in BV.
    unfold owned in HX. destruct (mf_def c); [destruct BD|]. destruct (mf_val c); [destruct BV|]. destruct HX.
  - destruct HF as [_ ->]. destruct HX as [<-|[]]. unfold holds in *. congruence.
Qed.

Lemma bind_ret_r : forall A (o : out A), bind o (fun x => Ret x) = o.
Proof. intros A [x|c]; reflexivity. Qed.

Lemma process_memory : forall ws,
  match parse_cmds ws with
  | Crash c => m_process ws [] = MCrash c
  | Ret None => exists H, m_process ws [] = MRet false H
  | Ret (Some _) => exists tab H, m_process ws [] = MRet true H /\
      forall a, owns H a -> exists n, In n forgotten /\ of_template H tab n a
  end.
Proof.
  intros ws.
  assert (HR : runs [] [] (m_process ws) (o <- parse_cmds ws;; Ret (match o with Some _ => true | None => false end))
    (fun y x H T => x = y /\ (y = true -> exists tab, forall a, owns H a -> exists n, In n forgotten /\ of_template H tab n a))).
  { unfold m_process. eapply runs_then; [apply runs_load_all; exact in_use_nil|]. intros tab G1 S HU1 _ HT.
    rewrite app_nil_r in HU1.
    rewrite <- (bind_ret_r _ (o <- parse_cmds ws;; Ret (match o with Some _ => true | None => false end))).
    eapply runs_bind; [apply runs_extend; eapply argc_cmds_memory; [exact HT|exact HU1]|].
    intros y x G2 T2 _ HU2 _ (T' & -> & [-> HO] & HK).
    rewrite app_nil_r in HU2.
    eapply runs_then; [apply runs_frame with (S := T'); eapply runs_uninit; [eapply are_hdrs_stable; [exact HT|exact HK]|exact tmpls_no_val|eapply in_use_perm; [exact HU2|perm]]|].
    intros [] G3 T3 HU3 _ (T3' & -> & HQ & _). eapply runs_ret; [exact HU3|]. split; auto. intros Ey. specialize (HO Ey). subst T'. rewrite !app_nil_r in HU3.
    exists tab. intros a HM. destruct (HQ a) as (t & h & St & A1 & A2 & A3 & A4).
    { destruct HU3 as [_ HI]. apply HI. destruct HM as [b HB]. exists false, b. exact HB. }
    { exact HM. }
    assert (HIN : In h hdr_tmpls) by (eapply in_combine_r; exact A1).
    destruct (tmpls_forgotten h HIN A2) as [HFG|HND].
    - exists (h_name h). split; auto. exists t, h, St. auto.
    - exfalso. eapply bare_static; [exact A3|exact HND| |exact A4|exact HM]. pose proof tmpls_no_val as HV. rewrite Forall_forall in HV. auto. }
  destruct (parse_cmds ws) as [[cs|]|c]; cbn [bind] in HR.
  - destruct HR as (x & H & T & E & _ & _ & -> & HQ). destruct (HQ eq_refl) as [tab HT]. exists tab, H. auto.
  - destruct HR as (x & H & T & E & _ & _ & -> & _). exists H. auto.
  - exact HR.
Qed.

(** ** The statements of PropertiesMem.v *)

Lemma process_safe : forall ws f, m_process ws [] <> MFault f.
Proof.
  intros ws f E. pose proof (process_memory ws) as HP. destruct (parse_cmds ws) as [[cs|]|c].
  - destruct HP as (tab & H & E' & _). congruence.
  - destruct HP as (H & E'). congruence.
  - congruence.
Qed.

Lemma process_crash : forall ws c, m_process ws [] = MCrash c <-> parse_cmds ws = Crash c.
Proof.
  intros ws c. pose proof (process_memory ws) as HP. destruct (parse_cmds ws) as [[cs|]|c'].
  - destruct HP as (tab & H & E' & _). split; congruence.
  - destruct HP as (H & E'). split; congruence.
  - split; congruence.
Qed.

Lemma process_released : forall ws cs, parse_cmds ws = Ret (Some cs) ->
  exists tab H, m_process ws [] = MRet true H /\ forall a, owns H a -> exists n, In n forgotten /\ of_template H tab n a.
Proof. intros ws cs E. pose proof (process_memory ws) as HP. rewrite E in HP. exact HP. Qed.

Lemma refused_memory : forall ws tab H, only_templates H tab -> parse_cmds ws = Ret None ->
  exists H', m_parse_cmds tab ws H = MRet None H' /\ (forall a, live H a -> nth_error H' a = nth_error H a).
Proof.
  intros ws tab H (S & HT & HU) E. pose proof (parse_cmds_memory tab H S ws HT HU) as HP. rewrite E in HP.
  destruct HP as (x & H' & T & E1 & _ & HK & HO). destruct x; cbn [cmds_out] in HO; [tauto|]. exists H'. split; auto.
  intros a HA. apply HK. destruct HU as [_ HI]. apply HI. auto.
Qed.

Lemma commands_memory : forall ws cs tab H, only_templates H tab -> parse_cmds ws = Ret (Some cs) ->
  exists ms H1 ms' H2 T, m_parse_cmds tab ws H = MRet (Some ms) H1 /\
    m_pair_loop [] ms H1 = MRet (ms', snd (fst (pair_cmds cs))) H2 /\
    are_cmds H2 ms' (fst (fst (pair_cmds cs))) T /\
    NoDup T /\ (forall a, In a T -> ~ live H a) /\ (forall a, live H2 a <-> In a T \/ live H a) /\
    (forall a, live H a -> nth_error H2 a = nth_error H a) /\
    exists H3, m_cleanup ms' H2 = MRet tt H3 /\ forall a, nth_error H3 a = nth_error H a \/ ~ live H3 a /\ ~ live H a.
Proof.
  intros ws cs tab H (S & HT & HU) E. pose proof (parse_cmds_memory tab H S ws HT HU) as HP. rewrite E in HP.
  destruct HP as (x & H1 & T1 & E1 & HU1 & HK1 & HO). destruct x as [ms|]; cbn [cmds_out] in HO; [|tauto].
  assert (HFR : Forall framed ([] ++ cs)) by (eapply framed_loop; exact E).
  destruct (runs_pair_loop cs [] ms [] H1 S [] T1 HFR) as ([ms' e] & H2 & T2 & E2 & HU2 & HK2 & HC2 & EE); [constructor|exact HO|exact HU1|].
  cbn [fst snd app] in *. rewrite pair_cmds_spec. cbn [fst snd].
  assert (HL : forall a, In a S <-> live H a) by (destruct HU; auto).
  destruct (runs_cleanup _ _ _ _ _ HC2 HU2) as ([] & H3 & T3 & E3 & HU3 & HK3 & ->).
  exists ms, H1, ms', H2, T2. split; auto. split; [rewrite E2, EE; reflexivity|]. split; auto.
  destruct HU2 as [HND HI2]. apply NoDup_app_iff in HND. destruct HND as (N1 & N2 & N3). split; auto.
  split; [intros a HA HB; apply HL in HB; eapply N3; eauto|].
  split; [intros a; rewrite <- HI2, in_app_iff, HL; tauto|].
  assert (HK : untouched H H2 S) by (apply (untouched_trans _ H1 _); auto).
  split; [intros a HA; apply HK; apply HL; auto|].
  exists H3. split; auto. intros a. destruct (in_dec Nat.eq_dec a S) as [HA|HA].
  - left. rewrite (HK3 a HA). apply HK. auto.
  - right. destruct HU3 as [_ HI3]. cbn [app] in HI3. rewrite <- HI3, <- HL. auto.
Qed.

(** Copies *)

Lemma disjoint_write : forall H x b H2 T, write x b H = MRet tt H2 -> ~ In x T -> untouched H H2 T.
Proof.
  intros H x b H2 T E HX. unfold write in E. destruct (nth_error H x) as [[s b0| |b0]|]; try discriminate; injection E as <-; apply untouched_upd; auto.
Qed.

Lemma frame_copy_memory : forall H R a f S, in_use H (S ++ R) -> is_frame H a f S ->
  exists a' H' T, m_frame_clone (Some a) H = MRet (Some a') H' /\ is_frame H' a f S /\ is_frame H' a' f T /\
    in_use H' (T ++ S ++ R) /\ untouched H H' (S ++ R) /\
    (forall x b H2, write x b H' = MRet tt H2 ->
       (In x T -> is_frame H2 a f S) /\ (In x S -> is_frame H2 a' f T)) /\
    (exists H2, m_frame_free (Some a) H' = MRet tt H2 /\ is_frame H2 a' f T /\ in_use H2 (T ++ R)) /\
    (exists H2, m_frame_free (Some a') H' = MRet tt H2 /\ is_frame H2 a f S /\ in_use H2 (S ++ R)).
Proof.
  intros H R a f S HU HF. destruct (runs_frame_clone H (S ++ R) a f S HU HF) as (p & H' & T & E & HU' & HK & a' & -> & HF'); [inc|].
  assert (HFK : is_frame H' a f S) by (eapply is_frame_stable; [exact HF|via HK]).
  assert (HD : forall x, In x T -> ~ In x S).
  { destruct HU' as [HND _]; apply NoDup_app_iff in HND. destruct HND as (_ & _ & HD). intros x HX HC. eapply HD; [exact HX|apply in_or_app; auto]. }
  exists a', H', T. split; auto. split; auto. split; auto. split; auto. split; auto. split; [|split].
  - intros x b H2 EW. split; intros HX.
    + eapply is_frame_stable; [exact HFK|]. eapply disjoint_write; [exact EW|]. intros HC. eapply HD; eauto.
    + eapply is_frame_stable; [exact HF'|]. eapply disjoint_write; [exact EW|]. intros HC. eapply HD; eauto.
  - destruct (runs_frame_free H' (T ++ R) a f S) as ([] & H2 & T2 & E2 & HU2 & HK2 & ->); [eapply in_use_perm; [exact HU'|perm]|exact HFK|].
    exists H2. split; auto. split; auto. eapply is_frame_stable; [exact HF'|via HK2].
  - destruct (runs_frame_free H' (S ++ R) a' f T) as ([] & H2 & T2 & E2 & HU2 & HK2 & ->); [exact HU'|exact HF'|].
    exists H2. split; auto. split; auto. eapply is_frame_stable; [exact HFK|via HK2].
Qed.

(** Computing the bytes of a frame changes that frame (defaults are filled in)
    and no other. *)
Lemma to_buf_memory : forall H R a f S, in_use H (S ++ R) -> is_frame H a f S ->
  match frame_to_buf f with
  | Crash c => m_frame_to_buf a H = MCrash c
  | Ret (f1, b) => exists x H' T, m_frame_to_buf a H = MRet x H' /\ holds H' x false (BBuf b) /\
      is_frame H' a f1 T /\ in_use H' (x :: T ++ R) /\ untouched H H' R
  end.
Proof.
  intros H R a f S HU HF. pose proof (runs_frame_to_buf H R a f S HF HU) as HP. destruct (frame_to_buf f) as [[f1 b]|c]; [|exact HP].
  destruct HP as (x & H' & T & E & HU' & HK & S' & A & B & ->). exists x, H', S'. auto.
Qed.

(** A header taken from a template. *)
Lemma template_copy_memory : forall H R t h St ws pad mask, in_use H R -> is_hdr true H t h St -> incl St R ->
  exists a H1 S, m_hdr_clone t H = MRet a H1 /\ is_hdr false H1 a h S /\
  match parse_hdr ws h pad mask with
  | Crash c => m_parse_hdr ws a pad mask H1 = MCrash c
  | Ret PErr => exists H2, m_parse_hdr ws a pad mask H1 = MRet MPErr H2 /\ is_hdr true H2 t h St
  | Ret (POk n h' pad' mask') => exists H2 T, m_parse_hdr ws a pad mask H1 = MRet (MPOk n pad' mask') H2 /\
      is_hdr false H2 a h' T /\ is_hdr true H2 t h St /\ in_use H2 (T ++ R)
  end.
Proof.
  intros H R t h St ws pad mask HU HT HI. destruct (runs_hdr_clone true H R t h St HU HT HI) as (a & H1 & S & E1 & HU1 & HK1 & HA).
  exists a, H1, S. split; auto. split; auto. pose proof (runs_parse_hdr ws H1 R a h S pad mask HA HU1) as HP.
  destruct (parse_hdr ws h pad mask) as [p|c]; [|exact HP]. destruct HP as (x & H2 & T & E2 & HU2 & HK2 & HO).
  assert (HT2 : is_hdr true H2 t h St) by (eapply is_hdr_stable; [exact HT|]; apply (untouched_trans _ H1 _); eapply untouched_incl; eauto).
  destruct p as [|n h' pad' mask'], x as [|n2 pad2 mask2]; cbn [hdr_out] in HO; try tauto.
  - exists H2. auto.
  - destruct HO as (-> & -> & -> & HH). exists H2, T. auto.
Qed.

Transparent hdr_tmpls.

(** Memory: parsing frames and commands. *)

From Verif Require Import PMem PMem2 PMem3 SpecMem BaseFacts.
From Coq Require Import Permutation.

Opaque hdr_tmpls.

Lemma runs_alloc_as : forall B (y : B) H R b, in_use H R ->
  runs H R (alloc b) (Ret y) (fun z a H' T => z = y /\ T = [a] /\ holds H' a false b).
Proof. intros B y H R b HU. destruct (runs_alloc H R b HU) as (x & H' & T & A & C & D & E). exists x, H', T. auto. Qed.

(** ** Header parsers *)

Definition hdr_out (a : addr) (y : pres) (x : mpres) (H : heap) (T : list addr) : Prop :=
  match y, x with
  | PErr, MPErr => exists h, is_hdr false H a h T
  | POk n h pad mask, MPOk n' pad' mask' => n' = n /\ pad' = pad /\ mask' = mask /\ is_hdr false H a h T
  | _, _ => False
  end.

Lemma alike_skips : forall b fs, Forall2 alike fs (map (set_skip b) fs).
Proof. induction fs; constructor; auto. unfold alike. auto. Qed.

Lemma alike_skip : forall w b h, alike_h h (fmod w (set_skip b) h).
Proof. intros. apply alike_fmod. unfold alike. auto. Qed.
Lemma alike_val : forall w o h, alike_h h (fmod w (set_val o) h).
Proof. intros. apply alike_fmod. unfold alike. auto. Qed.

Ltac store HH HG k :=
  eapply runs_then; [eapply runs_store_hdr; [exact HH|k|exact HG]|].

Lemma in_use_lose : forall H S b, in_use H S -> in_use (H ++ [Lost b]) S /\ untouched H (H ++ [Lost b]) S.
Proof.
  intros H S b [HN HI].
  assert (HK : forall a, live H a -> nth_error (H ++ [Lost b]) a = nth_error H a) by (intros a HA; apply nth_error_app1; apply live_lt; auto).
  split; [split; auto|intros a HA; apply HK; apply HI; auto]. intros a. rewrite HI. split.
  - intros HA. pose proof HA as (s & c & HC). exists s, c. unfold holds in *. rewrite HK; auto.
  - intros (s & c & HC). exists s, c. unfold holds in *. destruct (Nat.lt_ge_cases a (length H)) as [HL|HL]; [rewrite nth_error_app1 in HC; auto|].
    rewrite nth_error_app2 in HC by lia. destruct (a - length H)%nat as [|n]; cbn in HC; [discriminate|destruct n; discriminate].
Qed.

Lemma runs_parser_lost : forall p s n H T R, in_use H (T ++ R) ->
  runs H R (m_parser_lost p s n) (Ret tt) (fun _ _ H' T' => T' = T /\ untouched H H' T).
Proof.
  intros p s n H T R HU.
  assert (HN : runs H R (ret tt) (Ret tt) (fun (_ _ : unit) H' T' => T' = T /\ untouched H H' T)) by (eapply runs_ret; [exact HU|split; [auto|apply untouched_refl]]).
  unfold m_parser_lost. destruct p; try exact HN.
  - destruct (parse_var_bytes_hex s 0) as [[b|]|]; try exact HN. destruct (n <? zlen b); [|exact HN].
    destruct (in_use_lose _ _ (BBuf (balloc n)) HU) as [HU1 HK1]. destruct (in_use_lose _ _ (BBuf b) HU1) as [HU2 HK2].
    pose proof (untouched_trans _ _ _ _ HK1 HK2) as HK. apply untouched_app in HK. destruct HK as [A B].
    eexists tt, _, T. split; [reflexivity|]. split; [exact HU2|]. auto.
  - destruct (parse_var_bytes_hex s 1) as [[b|]|]; try exact HN. destruct (_ || _); [|exact HN].
    destruct (in_use_lose _ _ (BBuf b) HU) as [HU1 HK]. apply untouched_app in HK. destruct HK as [A B].
    eexists tt, _, T. split; [reflexivity|]. split; [exact HU1|]. auto.
Qed.

Lemma runs_hpf_loop : forall fuel ws i H R a h S pad mask, is_hdr false H a h S -> in_use H (S ++ R) ->
  runs H R (m_hpf_loop fuel ws i a pad mask) (hpf_loop fuel ws i h pad mask) (hdr_out a).
Proof.
  induction fuel as [|fuel IH]; intros ws i H R a h S pad mask HH HG; cbn [m_hpf_loop hpf_loop]; [reflexivity|].
  eapply runs_step; [eapply get_hdr_eq; exact HH|]. destruct ws as [|w r].
  { eapply runs_ret; [exact HG|]. cbn. auto. }
  destruct (String.eqb w "help"). { eapply runs_ret; [exact HG|]. cbn. eauto. }
  destruct (is_ign w && (i =? 0)%nat).
  { store HH HG ltac:(apply alike_fields; apply alike_skips). intros [] G1 T1 HG1 _ HH1. eapply IH; eauto. }
  destruct (find_field h w) as [f|]; [|eapply runs_ret; [exact HG|]; cbn; auto].
  cbv zeta. store HH HG ltac:(apply alike_val). intros [] G1 T1 HG1 _ HH1.
  eapply runs_step; [eapply get_hdr_eq; exact HH1|]. destruct r as [|v r2]. { eapply runs_ret; [exact HG1|]. cbn. eauto. }
  destruct (is_ign v).
  { store HH1 HG1 ltac:(apply alike_skip). intros [] G2 T2 HG2 _ HH2. eapply IH; eauto. }
  destruct (String.eqb v "help"). { eapply runs_ret; [exact HG1|]. cbn. eauto. }
  destruct (is_multi (f_parser f)).
  - apply runs_lift. intros [h1 cnt] E. apply alike_multi in E. store HH1 HG1 ltac:(exact E). intros [] G2 T2 HG2 _ HH2.
    destruct (_ && _).
    + store HH2 HG2 ltac:(apply alike_skip). intros [] G3 T3 HG3 _ HH3. eapply IH; eauto.
    + eapply runs_ret; [exact HG2|]. cbn. eauto.
  - apply runs_lift. intros [h1 o] E. apply alike_parser in E.
    eapply runs_then; [apply runs_parser_lost; exact HG1|]. intros [] G1' T1' HG1' _ [-> HK1'].
    pose proof (is_hdr_stable _ _ _ _ _ _ HH1 HK1') as HH1'. store HH1' HG1' ltac:(exact E). intros [] G2 T2 HG2 _ HH2.
    store HH2 HG2 ltac:(eapply alike_h_trans; [apply alike_val|apply alike_skip]). intros [] G3 T3 HG3 _ HH3. eapply IH; eauto.
Qed.

Lemma runs_parse_hdr : forall ws H R a h S pad mask, is_hdr false H a h S -> in_use H (S ++ R) ->
  runs H R (m_parse_hdr ws a pad mask) (parse_hdr ws h pad mask) (hdr_out a).
Proof.
  intros ws H R a h S pad mask HH HG. unfold m_parse_hdr. eapply runs_step; [eapply get_hdr_eq; exact HH|].
  destruct (h_parser h) eqn:EP.
  1:{ unfold parse_hdr. rewrite EP. eapply runs_hpf_loop; eassumption. }
  all: assert (HN : h_parser h <> HP_fields) by congruence; pose proof (alike_parse_hdr ws h pad mask) as HAL;
    destruct (parse_hdr ws h pad mask) as [p|c]; [|reflexivity].
  all: eapply runs_step; [reflexivity|]; destruct p as [|n h' pad' mask']; [eapply runs_ret; [exact HG|]; cbn; eauto|].
  all: store HH HG ltac:(eapply HAL; [exact HN|reflexivity]); intros [] G1 T1 HG1 _ HH1; eapply runs_ret; [exact HG1|]; cbn; auto.
Qed.

(** ** Templates *)

Lemma find_tmpl_eq : forall w tab hs H S, are_hdrs true H tab hs S ->
  match find (fun h => String.eqb w (h_name h)) hs with
  | None => m_find_tmpl w tab H = MRet None H
  | Some h => exists t St, m_find_tmpl w tab H = MRet (Some t) H /\ is_hdr true H t h St /\ incl St S
  end.
Proof.
  intros w tab hs H S HA. induction HA as [|a h S1 l hs S2 HH HL IH]; cbn [find m_find_tmpl]; [reflexivity|].
  pose proof HH as (m & HM & EN & _). unfold mbind. erewrite read_hdr_eq by eauto. rewrite EN.
  destruct (String.eqb w (h_name h)).
  - exists a, S1. split; [reflexivity|]. split; [auto|inc].
  - destruct (find _ hs) as [h'|]; [|auto]. destruct IH as (t & St & E & HT & HI). exists t, St. split; auto. split; auto. inc.
Qed.

(** ** Frames *)

Lemma are_hdrs_length : forall s H l hs S, are_hdrs s H l hs S -> length l = length hs.
Proof. intros s H l hs S HA. induction HA; cbn [length]; auto. Qed.

Lemma runs_push_hdr : forall H R fa f S t h St, is_frame H fa f S -> is_hdr true H t h St -> incl St R -> in_use H (S ++ R) ->
  runs H R (m_push_hdr fa t) (if FRAME_STACK_MAX <=? zlen (fr_stack f) then Crash OOB_write else Ret tt)
    (fun _ a H' T => exists l S' Sa, holds H' fa false (BFrame (MkMFrame (l ++ [a]) (fr_padding f) (fr_has_mask f))) /\
       are_hdrs false H' l (fr_stack f) S' /\ is_hdr false H' a h Sa /\ T = fa :: S' ++ Sa).
Proof.
  intros H R fa f S t h St (l & S' & HF & HS & ->) HT HI HU. unfold m_push_hdr.
  eapply runs_then; [apply runs_frame with (S := fa :: S'); eapply runs_hdr_clone; [exact HU|exact HT|inc]|].
  intros a G1 T1 HU1 HT1 (Sa & -> & HA & HO).
  assert (HF1 : holds G1 fa false (BFrame (MkMFrame l (fr_padding f) (fr_has_mask f)))) by (eapply holds_untouched; [exact HO|left; auto|exact HF]).
  eapply runs_step; [eapply read_frame_eq; exact HF1|]. cbn [mr_stack].
  assert (EL : zlen l = zlen (fr_stack f)) by (unfold zlen; erewrite are_hdrs_length; eauto). rewrite EL.
  destruct (FRAME_STACK_MAX <=? zlen (fr_stack f)); [reflexivity|].
  eapply runs_then; [eapply runs_write; [exact HU1|apply in_or_app; right; left; auto|exact HF1]|].
  intros [] G2 T2 HU2 HT2 (-> & HF2 & HO2). eapply runs_ret with (T := fa :: S' ++ Sa); [eapply in_use_perm; [exact HU2|perm]|].
  assert (HND : NoDup (fa :: S' ++ Sa)) by (destruct HU2 as [HND _]; apply NoDup_app_iff in HND; destruct HND as [HND _]; eapply Permutation_NoDup; [|exact HND]; perm).
  apply NoDup_cons_iff in HND. destruct HND as [HNI _].
  exists l, S', Sa. split; [exact HF2|]. split; [|split; auto].
  - eapply are_hdrs_stable; [exact HS|]. apply (untouched_trans _ G1 _); [via HO|]. intros x HX. apply HO2. intros ->. apply HNI. apply in_or_app. auto.
  - eapply is_hdr_stable; [exact HA|]. intros x HX. apply HO2. intros ->. apply HNI. apply in_or_app. auto.
Qed.

Definition frame_out (fa : addr) (y : option (nat * frame)) (x : option nat) (H : heap) (T : list addr) : Prop :=
  match y, x with
  | None, None => exists f, is_frame H fa f T
  | Some (n, f), Some n' => n' = n /\ is_frame H fa f T
  | _, _ => False
  end.

Lemma hdrs_one : forall s H a h S, is_hdr s H a h S -> are_hdrs s H [a] [h] S.
Proof. intros. rewrite <- (app_nil_r S). constructor; auto. constructor. Qed.

Lemma runs_argc_frame_loop : forall tab fuel ws i H R St fa f S, are_hdrs true H tab hdr_tmpls St -> incl St R ->
  is_frame H fa f S -> in_use H (S ++ R) ->
  runs H R (m_argc_frame_loop tab fuel ws i fa) (argc_frame_loop fuel ws i f) (frame_out fa).
Proof.
  intros tab. induction fuel as [|fuel IH]; intros ws i H R St fa f S HTB HI HF HU; cbn [m_argc_frame_loop argc_frame_loop]; [reflexivity|].
  destruct ws as [|w r]. { eapply runs_ret; [exact HU|]. cbn. auto. }
  destruct (String.eqb w "help"). { eapply runs_ret; [exact HU|]. cbn. eauto. }
  pose proof (find_tmpl_eq w _ _ _ _ HTB) as HFT. unfold find_tmpl. destruct (find _ hdr_tmpls) as [t|].
  2:{ eapply runs_step; [exact HFT|]. eapply runs_ret; [exact HU|]. cbn. auto. }
  destruct HFT as (ta & Sta & ET & HT & HTI). eapply runs_step; [exact ET|].
  assert (HI2 : incl Sta R) by (intros x HX; auto).
  pose proof (runs_push_hdr _ _ _ _ _ _ _ _ HF HT HI2 HU) as HP.
  destruct (FRAME_STACK_MAX <=? zlen (fr_stack f)).
  { unfold runs in *. unfold mbind. rewrite HP. reflexivity. }
  eapply runs_then; [exact HP|]. intros a G1 T1 HU1 HT1 (l & S' & Sa & HF1 & HS1 & HA1 & ->).
  eapply runs_step; [eapply read_frame_eq; exact HF1|]. cbn [mr_padding mr_mask].
  eapply runs_bind; [apply runs_frame with (S := fa :: S'); eapply runs_parse_hdr; [exact HA1|eapply in_use_perm; [exact HU1|perm]]|].
  intros p mp G2 T2 _ HU2 HT2 (Sa' & -> & HO & HK).
  assert (HF2 : holds G2 fa false (BFrame (MkMFrame (l ++ [a]) (fr_padding f) (fr_has_mask f)))) by (eapply holds_untouched; [exact HK|left; auto|exact HF1]).
  assert (HS2 : are_hdrs false G2 l (fr_stack f) S') by (eapply are_hdrs_stable; [exact HS1|via HK]).
  destruct p as [|n h pad mask], mp as [|n' pad' mask']; cbn [hdr_out] in HO; try tauto.
  - destruct HO as [h HH]. eapply runs_ret with (T := fa :: S' ++ Sa'); [eapply in_use_perm; [exact HU2|perm]|]. cbn [frame_out].
    exists (MkFrame (fr_stack f ++ [h]) (fr_padding f) (fr_has_mask f)). exists (l ++ [a]), (S' ++ Sa'). split; [exact HF2|]. split; auto.
    apply are_hdrs_app; auto. apply hdrs_one. auto.
  - destruct HO as (-> & -> & -> & HH). eapply runs_step; [eapply read_frame_eq; exact HF2|]. cbn [mr_stack].
    eapply runs_then; [eapply runs_write; [exact HU2|apply in_or_app; right; left; auto|exact HF2]|].
    intros [] G3 T3 HU3 HT3 (-> & HF3 & HO3).
    assert (HND : NoDup (fa :: S' ++ Sa')) by (destruct HU3 as [HND _]; apply NoDup_app_iff in HND; destruct HND as [HND _]; eapply Permutation_NoDup; [|exact HND]; perm).
    apply NoDup_cons_iff in HND. destruct HND as [HNI _].
    eapply IH with (S := fa :: S' ++ Sa'); [| exact HI | | eapply in_use_perm; [exact HU3|perm]].
    + eapply are_hdrs_stable; [exact HTB|]. apply (untouched_trans _ G1 _); [via HT1|]. apply (untouched_trans _ G2 _); [via HT2|via HT3].
    + exists (l ++ [a]), (S' ++ Sa'). split; [exact HF3|]. split; auto. cbn [fr_stack]. apply are_hdrs_app; [|apply hdrs_one].
      * eapply are_hdrs_stable; [exact HS2|]. intros x HX. apply HO3. intros ->. apply HNI. apply in_or_app. auto.
      * eapply is_hdr_stable; [exact HH|]. intros x HX. apply HO3. intros ->. apply HNI. apply in_or_app. auto.
Qed.

Lemma runs_argc_frame : forall tab ws H R St fa, are_hdrs true H tab hdr_tmpls St -> incl St R ->
  is_frame H fa empty_frame [fa] -> in_use H (fa :: R) ->
  runs H R (m_argc_frame tab ws fa) (argc_frame ws) (frame_out fa).
Proof.
  intros tab ws H R St fa HTB HI HF HU. unfold m_argc_frame, argc_frame. destruct (FRAME_STACK_MAX <? zlen ws).
  { eapply runs_ret with (T := [fa]); [exact HU|]. cbn. eauto. }
  destruct HF as (l & S' & HA & HS & E). inversion HS; subst.
  assert (HR : runs H R (m_frame_reset fa) (Ret tt) (fun _ _ H' T => is_frame H' fa empty_frame [fa] /\ T = [fa])).
  { unfold m_frame_reset. eapply runs_step; [eapply read_frame_eq; exact HA|]. cbn [mr_stack m_reset_loop]. eapply runs_step; [reflexivity|].
    eapply runs_mono; [eapply runs_write with (T := [fa]); [exact HU|left; auto|exact HA]|]. intros [] [] G T _ _ (-> & HH & _). split; auto.
    exists [], []. split; [exact HH|]. split; [constructor|auto]. }
  eapply runs_then; [exact HR|]. intros [] G T HG HT [HF ->].
  eapply runs_argc_frame_loop; [|exact HI|exact HF|exact HG]. eapply are_hdrs_stable; [exact HTB|via HT].
Qed.

Lemma runs_frame_to_buf : forall H R fa f S, is_frame H fa f S -> in_use H (S ++ R) ->
  runs H R (m_frame_to_buf fa) (frame_to_buf f)
    (fun y x H' T => exists S', is_frame H' fa (fst y) S' /\ holds H' x false (BBuf (snd y)) /\ T = x :: S').
Proof.
  intros H R fa f S HF HU. unfold m_frame_to_buf. eapply runs_step; [eapply get_frame_eq; exact HF|].
  pose proof (alike_frame_to_buf f) as HAL. destruct (frame_to_buf f) as [[f1 b]|c]; [|reflexivity].
  destruct (HAL f1 b eq_refl) as (A1 & A2 & A3). eapply runs_step; [reflexivity|].
  destruct HF as (l & S' & HA & HS & ->). eapply runs_step; [eapply read_frame_eq; exact HA|]. cbn [mr_stack].
  eapply runs_then; [apply runs_frame with (S := [fa]); eapply runs_store_stack; [exact HS|exact A1|eapply in_use_perm; [exact HU|perm]]|].
  intros [] G1 T1 HU1 HT1 (T' & -> & HS1 & HK).
  eapply runs_reorder; [apply runs_frame with (S := T' ++ [fa]); apply runs_alloc_as; eapply in_use_perm; [exact HU1|perm]|].
  intros y x G2 T2 HU2 HT2 (T2' & -> & (-> & -> & HX) & HK2). exists (x :: fa :: T'). split; [perm|]. cbn [fst snd].
  exists (fa :: T'). split; [|auto]. exists l, T'. split; [|split; auto].
  - rewrite A2, A3. eapply holds_untouched; [exact HK2|apply in_or_app; right; left; auto|]. eapply holds_untouched; [exact HK|left; auto|exact HA].
  - eapply are_hdrs_stable; [exact HS1|via HK2].
Qed.

Lemma runs_frame_mask_to_buf : forall H R fa f S, is_frame H fa f S -> in_use H R -> incl S R ->
  runs H R (m_frame_mask_to_buf fa) (frame_mask_to_buf f) (fun y x H' T => T = [x] /\ holds H' x false (BBuf y)).
Proof.
  intros H R fa f S HF HU HI. unfold m_frame_mask_to_buf. eapply runs_step; [eapply get_frame_eq; exact HF|].
  destruct (frame_mask_to_buf f) as [m|c]; [|reflexivity]. eapply runs_step; [reflexivity|].
  destruct (runs_alloc H R (BBuf m) HU) as (x & H' & T & E & HU' & HT & HQ). exists x, H', T. auto.
Qed.

(** ** Commands *)

Lemma runs_cmd_destruct : forall H R m c S, is_cmd H m c S -> in_use H (S ++ R) ->
  runs H R (m_cmd_destruct m) (Ret tt) (fun _ _ _ T => T = []).
Proof.
  intros H R m c S (E1 & E2 & E3 & HN & HA & HB & HM & SF & HF & ->) HU. unfold m_cmd_destruct.
  rewrite <- !app_assoc in HU.
  eapply runs_seq_free with (S2 := the (mc_arg0 m) ++ SF ++ the (mc_buf m) ++ the (mc_mask m)) (Q := fun _ _ => True).
  { rewrite <- !app_assoc. eapply runs_mono; [eapply runs_free_str; [exact HU|exact HN]|]. auto. }
  intros [] G1 HU1 HT1 _. rewrite <- !app_assoc in HU1.
  eapply runs_seq_free with (S2 := SF ++ the (mc_buf m) ++ the (mc_mask m)) (Q := fun _ _ => True).
  { rewrite <- !app_assoc. eapply runs_mono; [eapply runs_free_str; [exact HU1|eapply is_str_stable; [exact HA|via HT1]]|]. auto. }
  intros [] G2 HU2 HT2 _. rewrite <- !app_assoc in HU2.
  assert (HT : untouched H G2 (SF ++ the (mc_buf m) ++ the (mc_mask m))) by (apply (untouched_trans _ G1 _); [via HT1|via HT2]).
  eapply runs_seq_free with (S2 := the (mc_buf m) ++ the (mc_mask m)) (Q := fun _ _ => True).
  { rewrite <- !app_assoc. eapply runs_mono; [eapply runs_frame_free_opt with (f := c_frame c); [exact HU2|]|auto].
    destruct (mc_frame m), (c_frame c); cbn [is_frame_opt] in *; auto. eapply is_frame_stable; [exact HF|via HT]. }
  intros [] G3 HU3 HT3 _. rewrite <- !app_assoc in HU3.
  eapply runs_seq_free with (S2 := the (mc_mask m)) (Q := fun _ _ => True).
  { eapply runs_mono; [eapply runs_free_buf; [exact HU3|]|auto]. eapply is_buf_stable; [exact HB|]. apply (untouched_trans _ G2 _); [via HT|via HT3]. }
  intros [] G4 HU4 HT4 _. eapply runs_free_buf; [exact HU4|]. eapply is_buf_stable; [exact HM|].
  apply (untouched_trans _ G2 _); [via HT|]. apply (untouched_trans _ G3 _); [via HT3|via HT4].
Qed.

Definition cmd_out (y : cres) (x : mcres) (H : heap) (T : list addr) : Prop :=
  match y, x with
  | CErr, MCErr => T = []
  | CNone, MCNone => T = []
  | COk n c, MCOk n' m => n' = n /\ is_cmd H m c T
  | _, _ => False
  end.

Lemma runs_finish_cmd : forall tab ct name nv arg0 av rep i ws H R St, are_hdrs true H tab hdr_tmpls St -> incl St R ->
  is_str H name nv -> is_str H arg0 av -> in_use H ((the name ++ the arg0) ++ R) ->
  runs H R (m_finish_cmd tab ct name arg0 rep i ws) (finish_cmd ct nv av rep i ws) cmd_out.
Proof.
  intros tab ct name nv arg0 av rep i ws H R St HTB HI HN HA HU. unfold m_finish_cmd, finish_cmd.
  unfold m_frame_alloc. eapply runs_then; [apply runs_frame with (S := the name ++ the arg0); apply runs_alloc; exact HU|].
  intros fa G1 T1 HU1 HT1 (T' & -> & (-> & HF) & HK1).
  eapply runs_bind; [apply runs_frame with (S := the name ++ the arg0); eapply runs_argc_frame; [| | |exact HU1]|].
  { eapply are_hdrs_stable; [exact HTB|via HT1]. }
  { inc. }
  { exists [], []. split; [exact HF|]. split; [constructor|auto]. }
  intros y x G2 T2 EY HU2 HT2 (SF & -> & HO & HK2).
  assert (HN2 : is_str G2 name nv) by (eapply is_str_stable; [exact HN|]; apply (untouched_trans _ G1 _); [via HK1|via HK2]).
  assert (HA2 : is_str G2 arg0 av) by (eapply is_str_stable; [exact HA|]; apply (untouched_trans _ G1 _); [via HK1|via HK2]).
  assert (HDES : forall f, is_frame G2 fa f SF -> is_cmd G2 (MkMCmd ct name arg0 (Some fa) None None false rep)
     (MkCmd ct nv av (Some f) None None false rep) (the name ++ the arg0 ++ SF ++ [] ++ [])).
  { intros f Hf. unfold is_cmd. cbn [mc_type mc_done mc_repeat mc_name mc_arg0 mc_buf mc_mask mc_frame c_type c_done c_repeat c_name c_arg0 c_buf c_mask c_frame].
    repeat (split; [solve [auto|exact I]|]). exists SF. split; [exact Hf|reflexivity]. }
  assert (HFREE : forall f z mz, is_frame G2 fa f SF -> cmd_out z mz G2 [] -> (forall G, cmd_out z mz G []) ->
     runs G2 R (m_cmd_destruct (MkMCmd ct name arg0 (Some fa) None None false rep) ~;; ret mz) (Ret z) cmd_out).
  { intros f z mz Hf _ HZ. eapply runs_then; [eapply runs_cmd_destruct; [apply HDES; exact Hf|eapply in_use_perm; [exact HU2|perm]]|].
    intros [] G3 T3 HU3 _ ->. eapply runs_ret; [exact HU3|]. apply HZ. }
  destruct y as [[n f]|], x as [n'|]; cbn [frame_out] in HO; try tauto.
  2:{ destruct HO as [f Hf]. eapply HFREE; cbn; eauto. }
  destruct HO as [-> Hf]. destruct n as [|n].
  - destruct ct; try (eapply HFREE; [exact Hf|reflexivity|reflexivity]).
    eapply runs_then; [apply runs_frame with (S := the name ++ the arg0); eapply runs_frame_free with (S := SF); [eapply in_use_perm; [exact HU2|perm]|exact Hf]|].
    intros [] G3 T3 HU3 HT3 (T' & -> & -> & HK3). eapply runs_ret; [exact HU3|]. cbn [cmd_out]. split; auto. unfold is_cmd.
    cbn [mc_type mc_done mc_repeat mc_name mc_arg0 mc_buf mc_mask mc_frame c_type c_done c_repeat c_name c_arg0 c_buf c_mask c_frame].
    split; [auto|]. split; [auto|]. split; [auto|]. split; [eapply is_str_stable; [exact HN2|via HK3]|]. split; [eapply is_str_stable; [exact HA2|via HK3]|].
    split; [exact I|]. split; [exact I|]. exists []. split; [reflexivity|]. cbn [the app]. rewrite ?app_nil_r. reflexivity.
  - eapply runs_bind; [apply runs_frame with (S := the name ++ the arg0); eapply runs_frame_to_buf; [exact Hf|eapply in_use_perm; [exact HU2|perm]]|].
    intros [f1 b] ba G3 T3 _ HU3 HT3 (T' & -> & (SF3 & HF3 & HB3 & ->) & HK3). cbn [fst snd] in *.
    pose proof HF3 as (l3 & S3 & HR3 & _ & _). eapply runs_step; [eapply read_frame_eq; exact HR3|]. cbn [mr_mask].
    assert (HM : runs G3 R (if fr_has_mask f1 then m <~ m_frame_mask_to_buf fa;; ret (Some m) else ret None)
       (if fr_has_mask f1 then m <- frame_mask_to_buf f1;; Ret (Some m) else Ret None)
       (fun y x H' T => is_buf H' x y /\ T = the x ++ (ba :: SF3) ++ the name ++ the arg0 /\ untouched G3 H' ((ba :: SF3) ++ the name ++ the arg0))).
    { destruct (fr_has_mask f1).
      - eapply runs_bind; [apply runs_frame with (S := (ba :: SF3) ++ the name ++ the arg0); eapply runs_frame_mask_to_buf; [exact HF3|eapply in_use_perm; [exact HU3|perm]|inc]|].
        intros m ma G4 T4 _ HU4 HT4 (T' & -> & (-> & HM4) & HK4). eapply runs_ret; [exact HU4|]. split; [exact HM4|]. split; [reflexivity|exact HK4].
      - eapply runs_ret with (T := (ba :: SF3) ++ the name ++ the arg0); [eapply in_use_perm; [exact HU3|perm]|]. split; [exact I|]. split; [reflexivity|apply untouched_refl]. }
    eapply runs_bind; [exact HM|]. intros m ma G4 T4 _ HU4 HT4 (HM4 & -> & HK4).
    eapply runs_ret with (T := the name ++ the arg0 ++ SF3 ++ [ba] ++ the ma); [eapply in_use_perm; [exact HU4|perm]|]. cbn [cmd_out]. split; auto. unfold is_cmd.
    cbn [mc_type mc_done mc_repeat mc_name mc_arg0 mc_buf mc_mask mc_frame c_type c_done c_repeat c_name c_arg0 c_buf c_mask c_frame].
    split; [auto|]. split; [auto|]. split; [auto|].
    split; [eapply is_str_stable; [exact HN2|apply (untouched_trans _ G3 _); [via HK3|via HK4]]|].
    split; [eapply is_str_stable; [exact HA2|apply (untouched_trans _ G3 _); [via HK3|via HK4]]|].
    split; [eapply holds_untouched; [exact HK4|left; auto|exact HB3]|]. split; [exact HM4|]. exists SF3. split; [|reflexivity].
    eapply is_frame_stable; [exact HF3|via HK4].
Qed.

Lemma runs_cmd_frame : forall tab ct name nv arg0 av rep i ws H R St, are_hdrs true H tab hdr_tmpls St -> incl St R ->
  is_str H name nv -> is_str H arg0 av -> in_use H ((the name ++ the arg0) ++ R) -> (name = None \/ ct = CT_name) ->
  runs H R (m_cmd_frame tab ct name arg0 rep i ws) (cmd_frame ct nv av rep i ws) cmd_out.
Proof.
  intros tab ct name nv arg0 av rep i ws H R St HTB HI HN HA HU HC. unfold m_cmd_frame, cmd_frame.
  destruct ws as [|w [|a r]]; try (eapply runs_finish_cmd; eassumption).
  destruct (String.eqb w "name" && negb (cmd_type_eqb ct CT_name)) eqn:E; [|eapply runs_finish_cmd; eassumption].
  destruct HC as [EC|EC]; subst; [|apply andb_true_iff in E; destruct E; discriminate]. unfold m_strdup.
  eapply runs_then; [apply runs_frame with (S := the arg0); apply runs_alloc; exact HU|].
  intros n G1 T1 HU1 HT1 (T' & -> & (-> & HS) & HK). eapply runs_ret; [exact HU1|]. cbn [cmd_out]. split; auto. unfold is_cmd.
  cbn [mc_type mc_done mc_repeat mc_name mc_arg0 mc_buf mc_mask mc_frame c_type c_done c_repeat c_name c_arg0 c_buf c_mask c_frame].
  split; [auto|]. split; [auto|]. split; [auto|]. split; [exact HS|]. split; [eapply is_str_stable; [exact HA|exact HK]|]. split; [exact I|]. split; [exact I|].
  exists []. split; [reflexivity|]. cbn [the app]. rewrite ?app_nil_r. reflexivity.
Qed.

Lemma runs_argc_cmd : forall tab ws H R St, are_hdrs true H tab hdr_tmpls St -> incl St R -> in_use H R ->
  runs H R (m_argc_cmd tab ws) (argc_cmd ws) cmd_out.
Proof.
  intros tab ws H R St HTB HI HU. unfold m_argc_cmd, argc_cmd.
  assert (HR : forall z mz, cmd_out z mz H [] -> runs H R (ret mz) (Ret z) cmd_out) by (intros z mz HZ; eapply runs_ret with (T := []); [exact HU|exact HZ]).
  destruct ws as [|w r]; [apply HR; reflexivity|]. destruct (cmd_word w) as [ct|] eqn:EW.
  2:{ destruct (String.eqb w "help"); apply HR; reflexivity. }
  destruct r as [|a r2]; [apply HR; reflexivity|].
  assert (HD : forall B (k : addr -> M B) (o : out cres) Q,
    (forall n G, in_use G (n :: R) -> untouched H G R -> holds G n false (BStr a) -> runs G R (k n) o Q) ->
    runs H R (n <~ m_strdup a;; k n) o Q).
  { intros B k o Q HK. eapply runs_then; [apply runs_alloc; exact HU|]. intros n G T HG HT [-> HS]. apply HK; auto. }
  destruct ct.
  - apply HD. intros n G HG HT HS. eapply runs_cmd_frame; [eapply are_hdrs_stable; [exact HTB|via HT]|exact HI|exact HS|exact I|exact HG|auto].
  - apply HD. intros n G HG HT HS. eapply runs_cmd_frame; [eapply are_hdrs_stable; [exact HTB|via HT]|exact HI|exact I|exact HS|exact HG|auto].
  - eapply runs_cmd_frame; [exact HTB|exact HI|exact I|exact I|exact HU|auto].
  - apply HD. intros n G HG HT HS. eapply runs_cmd_frame; [eapply are_hdrs_stable; [exact HTB|via HT]|exact HI|exact I|exact HS|exact HG|auto].
  - apply HD. intros n G HG HT HS. destruct r2 as [|x r3]; [reflexivity|]. destruct (_ || _).
    + destruct r3 as [|k r4]; [reflexivity|]. eapply runs_cmd_frame; [eapply are_hdrs_stable; [exact HTB|via HT]|exact HI|exact I|exact HS|exact HG|auto].
    + eapply runs_cmd_frame; [eapply are_hdrs_stable; [exact HTB|via HT]|exact HI|exact I|exact HS|exact HG|auto].
Qed.

Definition cmds_out (y : option (list cmd)) (x : option (list mcmd)) (H : heap) (T : list addr) : Prop :=
  match y, x with
  | None, None => True
  | Some cs, Some ms => are_cmds H ms cs T
  | _, _ => False
  end.

Lemma runs_argc_cmds_loop : forall tab k ws H R St, are_hdrs true H tab hdr_tmpls St -> incl St R -> in_use H R ->
  runs H R (m_argc_cmds_loop tab k ws) (argc_cmds_loop k ws) cmds_out.
Proof.
  intros tab. induction k as [|k IH]; intros ws H R St HTB HI HU; cbn [m_argc_cmds_loop argc_cmds_loop].
  - destruct ws; eapply runs_ret with (T := []); try exact HU; cbn; [constructor|exact I].
  - destruct ws as [|w r]. { eapply runs_ret with (T := []); [exact HU|]. constructor. }
    eapply runs_bind; [eapply runs_argc_cmd; eassumption|]. intros y x G1 T1 _ HU1 HT1 HO.
    destruct y as [| |n c], x as [| |n' m]; cbn [cmd_out] in HO; try tauto; try (eapply runs_ret; [exact HU1|exact I]).
    destruct HO as [-> HC].
    eapply runs_bind; [apply runs_frame with (S := T1); eapply IH; [eapply are_hdrs_stable; [exact HTB|via HT1]|inc|exact HU1]|].
    intros y x G2 T2 _ HU2 HT2 (T' & -> & HO & HK).
    destruct y as [cs|], x as [ms|]; cbn [cmds_out] in HO; try tauto.
    + eapply runs_ret with (T := T1 ++ T'); [eapply in_use_perm; [exact HU2|perm]|]. cbn [cmds_out]. constructor; auto. eapply is_cmd_stable; eauto.
    + eapply runs_ret; [exact HU2|exact I].
Qed.

(** Memory: copying, freeing and storing headers and frames. *)

From Verif Require Import PMem SpecMem BaseFacts.
From Coq Require Import Permutation.

Ltac inc :=
  let x := fresh in let HX := fresh in intros x HX;
  repeat match goal with A : incl _ _ |- _ => let B := fresh in pose proof (A x) as B; clear A end;
  repeat (rewrite ?in_app_iff in *; cbn [In flat_map app] in * ); tauto.

Ltac via A := eapply untouched_incl; [exact A|inc].

Lemma runs_reorder : forall A B H R (m : M A) (o : out B) (Q Q' : B -> A -> heap -> list addr -> Prop),
  runs H R m o Q ->
  (forall y x H' T, in_use H' (T ++ R) -> untouched H H' R -> Q y x H' T -> exists T', Permutation T T' /\ Q' y x H' T') ->
  runs H R m o Q'.
Proof.
  intros A B H R m o Q Q' HM HQ. destruct o as [y|c]; auto. destruct HM as (x & H' & T & E & HU & HT & HP).
  destruct (HQ y x H' T HU HT HP) as (T' & HPm & HQ'). exists x, H', T'. split; [auto|]. split; [|auto].
  eapply in_use_perm; [exact HU|]. apply Permutation_app_tail. auto.
Qed.

Lemma NoDup_app_iff : forall A (l r : list A), NoDup (l ++ r) <-> NoDup l /\ NoDup r /\ (forall x, In x l -> ~ In x r).
Proof.
  induction l as [|x l IH]; intros r; cbn [app]; split.
  - intros HN. split; [constructor|]. split; auto.
  - tauto.
  - intros HN. inversion HN; subst. apply IH in H2. destruct H2 as (A1 & A2 & A3). split; [constructor; auto; intros HC; apply H1; apply in_or_app; auto|]. split; auto.
    intros y [->|HY]; [intros HC; apply H1; apply in_or_app; auto|auto].
  - intros (A1 & A2 & A3). inversion A1; subst. constructor; [intros HC; apply in_app_or in HC; destruct HC; [auto|eapply A3; eauto; left; auto]|].
    apply IH. split; auto. split; auto. intros y HY. apply A3. right. auto.
Qed.

Definition c1 (a x : addr) : nat := if Nat.eq_dec a x then 1%nat else 0%nat.

Lemma count_cons : forall a l x, count_occ Nat.eq_dec (a :: l) x = (c1 a x + count_occ Nat.eq_dec l x)%nat.
Proof. intros. unfold c1. cbn [count_occ]. destruct (Nat.eq_dec a x); lia. Qed.

Ltac perm :=
  apply (proj2 (Permutation_count_occ Nat.eq_dec _ _)); let x := fresh in intros x;
  cbn [the flat_map app]; rewrite ?flat_map_app; cbn [flat_map]; rewrite ?app_nil_r;
  repeat (rewrite ?count_occ_app, ?count_cons; cbn [app]); cbn [count_occ]; unfold addr; lia.

Lemma runs_bclone : forall H R p v, in_use H R -> is_buf H p v ->
  runs H R (m_bclone p) (Ret tt) (fun _ p' H' T => T = the p' /\ is_buf H' p' v).
Proof.
  intros H R [a|] [b|] HU HB; cbn [is_buf] in HB; try tauto; cbn [m_bclone].
  - eapply runs_step; [eapply read_buf_eq; eauto|]. eapply runs_then; [apply runs_alloc; auto|].
    intros a' H' T HU' HT [-> HH]. eapply runs_ret; eauto.
  - eapply runs_ret with (T := []); auto.
Qed.

Lemma runs_field_copy : forall H R c f, in_use H R -> is_field H c f -> incl (owned c) R ->
  runs H R (m_field_copy c) (Ret tt) (fun _ c' H' T => T = owned c' /\ is_field H' c' f).
Proof.
  intros H R c f HU (E1 & E2 & E3 & E4 & E5 & HD & HV) HI. unfold m_field_copy, owned in *.
  eapply runs_then; [apply runs_bclone; eauto|]. intros p H1 T1 HU1 HT1 [-> HB1].
  eapply runs_then; [apply runs_frame with (S := the p); apply runs_bclone; [auto|]; eapply is_buf_stable; [eauto|]; eapply untouched_incl; [eauto|]; inc|].
  intros d H2 T2 HU2 HT2 (T' & -> & (-> & HB2) & HU3). eapply runs_ret; eauto. split; [reflexivity|].
  unfold is_field. cbn [mf_name mf_skip mf_width mf_off mf_parser mf_def mf_val]. repeat (split; [solve [auto]|]).
  eapply is_buf_stable; eauto.
Qed.

Lemma runs_copy_loop : forall l fs H R fa dl dfs, Forall2 (is_field H) l fs -> incl (flat_map owned l) R ->
  holds H fa false (BFields dl) -> Forall2 (is_field H) dl dfs -> in_use H ((fa :: flat_map owned dl) ++ R) ->
  runs H R (m_copy_loop l fa) (Ret tt) (fun _ _ H' T => exists l', holds H' fa false (BFields l') /\
    Forall2 (is_field H') l' (dfs ++ fs) /\ T = fa :: flat_map owned l').
Proof.
  induction l as [|c l IH]; intros fs H R fa dl dfs HL HI HA HD HU; inversion HL as [|c0 f0 l0 fs0 HC0 HL0]; subst; cbn [m_copy_loop].
  - eapply runs_ret; eauto. exists dl. rewrite app_nil_r. auto.
  - cbn [flat_map] in HI.
    eapply runs_then; [eapply runs_frame with (S := fa :: flat_map owned dl); apply runs_field_copy; [exact HU | eauto | inc]|].
    intros c' G1 T1 HU1 HT1 (T' & -> & (-> & HC) & HS).
    assert (HA1 : holds G1 fa false (BFields dl)) by (eapply holds_untouched; eauto; left; auto).
    eapply runs_step; [eapply read_fields_eq; eauto|].
    eapply runs_then; [eapply runs_write; [exact HU1 | rewrite in_app_iff; right; left; auto | eauto]|].
    intros [] G2 T2 HU2 HT2 (-> & HA2 & HO).
    assert (HN : NoDup (owned c' ++ fa :: flat_map owned dl)).
    { destruct HU1 as [HN _]. apply NoDup_app_iff in HN. tauto. }
    assert (HN1 : ~ In fa (owned c')). { apply NoDup_remove_2 in HN. intros HC1. apply HN. apply in_or_app. auto. }
    assert (HN2 : ~ In fa (flat_map owned dl)). { apply NoDup_remove_2 in HN. intros HC1. apply HN. apply in_or_app. auto. }
    assert (HR : runs G2 R (m_copy_loop l fa) (Ret tt) (fun _ _ H' T => exists l', holds H' fa false (BFields l') /\
      Forall2 (is_field H') l' ((dfs ++ [f0]) ++ fs0) /\ T = fa :: flat_map owned l')).
    { apply IH with (dl := dl ++ [c']).
    + eapply fields_stable; [exact HL0|]. apply (untouched_trans _ G1 _); [via HT1|via HT2].
    + inc.
    + exact HA2.
    + apply Forall2_app.
      * eapply fields_stable; [eauto|]. eapply untouched_trans; [eapply untouched_incl; [exact HS|inc]|]. intros x HX. apply HO. intros ->. auto.
      * constructor; [|constructor]. eapply is_field_stable; [eauto|]. intros x HX. apply HO. intros ->. auto.
    + rewrite flat_map_app. cbn [flat_map]. rewrite app_nil_r. eapply in_use_perm; [exact HU2|].
      perm. }
    rewrite <- app_assoc in HR. exact HR.
Qed.

Lemma runs_hdr_copy : forall s H R dst a h S m0, in_use H (dst :: R) -> holds H dst false (BHdr m0) ->
  is_hdr s H a h S -> incl S R ->
  runs H R (m_hdr_copy dst a) (Ret tt) (fun _ _ H' T => is_hdr false H' dst h T).
Proof.
  intros s H R dst a h S m0 HU HD (m & HA & E1 & E2 & E3 & E4 & E5 & HF) HI. unfold m_hdr_copy.
  eapply runs_step; [eapply read_hdr_eq; eauto|].
  eapply runs_then; [eapply runs_write with (T := [dst]); [exact HU | left; auto | eauto]|].
  intros [] G1 T1 HU1 HT1 (-> & HD1 & HO1).
  destruct (mh_fields m) as [sa|] eqn:EF.
  - destruct HF as (l & HN & HL & HF & ->).
    assert (HL1 : holds G1 sa s (BFields l)) by (eapply holds_untouched; [exact HT1|apply HI; right; left; auto|eauto]).
    assert (HF1 : Forall2 (is_field G1) l (h_fields h)) by (eapply fields_stable; eauto; eapply untouched_incl; [exact HT1|]; inc).
    eapply runs_step; [eapply read_fields_eq; eauto|]. destruct l as [|c l]; [congruence|].
    eapply runs_then; [apply runs_frame with (S := [dst]); apply runs_alloc; exact HU1|].
    intros fa G2 T2 HU2 HT2 (T' & -> & (-> & HA2) & HD2).
    assert (HD3 : holds G2 dst false (BHdr m)) by (eapply holds_untouched; [exact HD2|left; auto|auto]).
    eapply runs_then; [eapply runs_write; [exact HU2 | right; left; auto | exact HD3]|].
    intros [] G3 T3 HU3 HT3 (-> & HD4 & HO3).
    assert (HNE : fa <> dst). { destruct HU2 as [HND _]. inversion HND; subst. intros ->. apply H2. left. auto. }
    assert (HR : runs G3 ([dst] ++ R) (m_copy_loop (c :: l) fa) (Ret tt) (fun _ _ H' T => exists l', holds H' fa false (BFields l') /\
      Forall2 (is_field H') l' ([] ++ h_fields h) /\ T = fa :: flat_map owned l')).
    { apply runs_copy_loop with (dl := []).
      - eapply fields_stable; [exact HF1|]. apply (untouched_trans _ G2 _); [via HT2|via HT3].
      - inc.
      - unfold holds. rewrite HO3 by auto. exact HA2.
      - constructor.
      - exact HU3. }
    apply runs_frame in HR. eapply runs_reorder; [exact HR|].
    intros [] [] G4 T4 HU4 HT4 (T' & -> & (l' & HL' & HF' & ->) & HD5).
    exists (dst :: fa :: flat_map owned l'). split; [perm|].
    exists (with_fields (Some fa) m). split; [eapply holds_untouched; [exact HD5|left; auto|auto]|].
    cbn [with_fields mh_name mh_type mh_size mh_fill mh_parser mh_fields]. repeat (split; [solve [auto]|]).
    exists l'. split; [|auto]. intros ->. inversion HF'. inversion HF; congruence.
  - destruct HF as [EN ->]. eapply runs_ret; [exact HU1|]. exists m. split; [auto|]. repeat (split; [solve [auto]|]). rewrite EF. auto.
Qed.

Lemma runs_hdr_clone : forall s H R a h S, in_use H R -> is_hdr s H a h S -> incl S R ->
  runs H R (m_hdr_clone a) (Ret tt) (fun _ a' H' T => is_hdr false H' a' h T).
Proof.
  intros s H R a h S HU HA HI. unfold m_hdr_clone.
  eapply runs_then; [apply runs_alloc; exact HU|]. intros dst G1 T1 HU1 HT1 [-> HD].
  eapply runs_then; [eapply runs_hdr_copy; [exact HU1 | exact HD | eapply is_hdr_stable; [exact HA|via HT1] | exact HI]|].
  intros [] G2 T2 HU2 HT2 HH. eapply runs_ret; eauto.
Qed.

(** ** Freeing *)

Lemma runs_free0 : forall H R a b, in_use H (a :: R) -> holds H a false b ->
  runs H R (free (Some a)) (Ret tt) (fun _ _ _ T => T = []).
Proof.
  intros H R a b HU HH. eapply runs_mono; [eapply runs_free with (T := []); eauto|]. intros ? ? ? ? _ _ [-> _]. auto.
Qed.

Lemma runs_free_buf : forall H R p v, in_use H (the p ++ R) -> is_buf H p v ->
  runs H R (free p) (Ret tt) (fun _ _ _ T => T = []).
Proof.
  intros H R [a|] [b|] HU HB; cbn [is_buf the app] in *; try tauto; [eapply runs_free0; eauto|].
  exists tt, H, []. split; [reflexivity|]. split; auto. split; [apply untouched_refl|auto].
Qed.

Lemma runs_free_str : forall H R p v, in_use H (the p ++ R) -> is_str H p v ->
  runs H R (free p) (Ret tt) (fun _ _ _ T => T = []).
Proof.
  intros H R [a|] [b|] HU HB; cbn [is_str the app] in *; try tauto; [eapply runs_free0; eauto|].
  exists tt, H, []. split; [reflexivity|]. split; auto. split; [apply untouched_refl|auto].
Qed.

(** An operation that gives up [S1] and then one that gives up [S2]. *)
Lemma runs_seq_free : forall A B H S2 R (m : M A) (k : A -> M B) (Q : A -> heap -> Prop),
  runs H (S2 ++ R) m (Ret tt) (fun _ x H' T => T = [] /\ Q x H') ->
  (forall x H', in_use H' (S2 ++ R) -> untouched H H' (S2 ++ R) -> Q x H' -> runs H' R (k x) (Ret tt) (fun _ _ _ T => T = [])) ->
  runs H R (mbind m k) (Ret tt) (fun _ _ _ T => T = []).
Proof.
  intros A B H S2 R m k Q HM HK. eapply runs_then; [apply runs_frame; exact HM|].
  intros x H' T HU HT (T' & -> & (-> & HQ) & HS). apply HK; auto. apply untouched_app. auto.
Qed.

Lemma runs_field_destruct : forall H R c f, in_use H (owned c ++ R) -> is_field H c f ->
  runs H R (m_field_destruct c) (Ret tt) (fun _ _ _ T => T = []).
Proof.
  intros H R c f HU (_ & _ & _ & _ & _ & HD & HV). unfold m_field_destruct, owned in *. rewrite <- app_assoc in HU.
  eapply runs_seq_free with (S2 := the (mf_val c)) (Q := fun _ _ => True).
  - eapply runs_mono; [eapply runs_free_buf; eauto|]. auto.
  - intros [] G HG HT _. eapply runs_free_buf; [exact HG|]. eapply is_buf_stable; [eauto|via HT].
Qed.

Lemma runs_destruct_loop : forall l fs H R, in_use H (flat_map owned l ++ R) -> Forall2 (is_field H) l fs ->
  runs H R (m_destruct_loop l) (Ret tt) (fun _ _ _ T => T = []).
Proof.
  induction l as [|c l IH]; intros fs H R HU HF; inversion HF as [|c0 f0 l0 fs0 HC HL]; subst; cbn [m_destruct_loop].
  - eapply runs_ret with (T := []); auto.
  - cbn [flat_map] in HU. rewrite <- app_assoc in HU. eapply runs_seq_free with (S2 := flat_map owned l) (Q := fun _ _ => True).
    + eapply runs_mono; [eapply runs_field_destruct; eauto|]. auto.
    + intros [] G HG HT _. eapply IH; [exact HG|]. eapply fields_stable; [eauto|via HT].
Qed.

Lemma runs_hdr_free : forall H R a h S, in_use H (S ++ R) -> is_hdr false H a h S ->
  runs H R (m_hdr_free (Some a)) (Ret tt) (fun _ _ _ T => T = []).
Proof.
  intros H R a h S HU (m & HA & E1 & E2 & E3 & E4 & E5 & HF). cbn [m_hdr_free].
  eapply runs_seq_free with (S2 := [a]) (Q := fun _ _ => True).
  - unfold m_hdr_destruct. eapply runs_step; [eapply read_hdr_eq; eauto|]. destruct (mh_fields m) as [fa|].
    + destruct HF as (l & HN & HL & HF & ->). eapply runs_step; [eapply read_fields_eq; eauto|].
      eapply runs_mono; [|intros ? ? ? ? _ _ HT; split; [exact HT|exact I]].
      eapply runs_seq_free with (S2 := [fa]) (Q := fun _ _ => True).
      * eapply runs_mono; [eapply runs_destruct_loop; [|exact HF]|auto]. eapply in_use_perm; [exact HU|]. perm.
      * intros [] G HG HT _. eapply runs_free0; [exact HG|]. eapply holds_untouched; [exact HT|left; auto|eauto].
    + destruct HF as [EN ->]. eapply runs_ret with (T := []); auto.
  - intros [] G HG HT _. eapply runs_free0; [exact HG|]. eapply holds_untouched; [exact HT|left; auto|eauto].
Qed.

Lemma runs_free_loop : forall l hs H R S, are_hdrs false H l hs S -> in_use H (S ++ R) ->
  runs H R (m_free_loop l) (Ret tt) (fun _ _ _ T => T = []).
Proof.
  induction l as [|a l IH]; intros hs H R S HA HU; inversion HA as [|a0 h0 S1 l0 hs0 S2 HH HL]; subst; cbn [m_free_loop].
  - eapply runs_ret with (T := []); auto.
  - rewrite <- app_assoc in HU. eapply runs_seq_free with (S2 := S2) (Q := fun _ _ => True).
    + eapply runs_mono; [eapply runs_hdr_free; eauto|]. auto.
    + intros [] G HG HT _. eapply IH; [|exact HG]. eapply are_hdrs_stable; [eauto|via HT].
Qed.

Lemma runs_frame_free : forall H R a f S, in_use H (S ++ R) -> is_frame H a f S ->
  runs H R (m_frame_free (Some a)) (Ret tt) (fun _ _ _ T => T = []).
Proof.
  intros H R a f S HU (l & S' & HA & HS & ->). cbn [m_frame_free].
  eapply runs_seq_free with (S2 := [a]) (Q := fun _ _ => True).
  - unfold m_frame_destruct. eapply runs_step; [eapply read_frame_eq; eauto|]. cbn [mr_stack].
    eapply runs_mono; [|intros ? ? ? ? _ _ HT; split; [exact HT|exact I]]. eapply runs_free_loop; [eauto|].
    eapply in_use_perm; [exact HU|]. perm.
  - intros [] G HG HT _. eapply runs_free0; [exact HG|]. eapply holds_untouched; [exact HT|left; auto|eauto].
Qed.

Lemma runs_frame_free_opt : forall H R p f S, in_use H (S ++ R) -> is_frame_opt H p f S ->
  runs H R (m_frame_free p) (Ret tt) (fun _ _ _ T => T = []).
Proof.
  intros H R [a|] [f|] S HU HF; cbn [is_frame_opt] in HF; try tauto; [eapply runs_frame_free; eauto|].
  subst S. eapply runs_ret with (T := []); auto.
Qed.

(** ** Copying a frame *)

Lemma upd_middle : forall A (l r : list A) x y, upd (l ++ x :: r) (length l) y = l ++ y :: r.
Proof. induction l; intros; cbn; auto. f_equal. auto. Qed.

Lemma are_hdrs_app : forall s H l1 hs1 S1 l2 hs2 S2, are_hdrs s H l1 hs1 S1 -> are_hdrs s H l2 hs2 S2 ->
  are_hdrs s H (l1 ++ l2) (hs1 ++ hs2) (S1 ++ S2).
Proof. intros s H l1 hs1 S1 l2 hs2 S2 HA HB. induction HA; cbn [app]; auto. rewrite <- app_assoc. constructor; auto. Qed.

Lemma runs_clone_loop : forall l hs H R S dst dl dhs DS pad mask, are_hdrs false H l hs S -> incl S R ->
  holds H dst false (BFrame (MkMFrame (dl ++ l) pad mask)) -> are_hdrs false H dl dhs DS ->
  in_use H ((dst :: DS) ++ R) ->
  runs H R (m_clone_loop l (length dl) dst) (Ret tt) (fun _ _ H' T => is_frame H' dst (MkFrame (dhs ++ hs) pad mask) T).
Proof.
  induction l as [|a l IH]; intros hs H R S dst dl dhs DS pad mask HA HI HD HDS HU; inversion HA as [|a0 h0 S1 l0 hs0 S2 HH HL]; subst; cbn [m_clone_loop].
  - eapply runs_ret; [exact HU|]. rewrite !app_nil_r in *. exists dl, DS. auto.
  - eapply runs_then; [apply runs_frame with (S := dst :: DS); eapply runs_hdr_clone; [exact HU | exact HH | inc]|].
    intros a' G1 T1 HU1 HT1 (T' & -> & HC & HS).
    assert (HD1 : holds G1 dst false (BFrame (MkMFrame (dl ++ a :: l) pad mask))) by (eapply holds_untouched; [exact HS|left; auto|auto]).
    eapply runs_step; [eapply read_frame_eq; eauto|]. cbn [mr_stack]. unfold with_stack. cbn [mr_padding mr_mask]. rewrite upd_middle.
    eapply runs_then; [eapply runs_write; [exact HU1 | rewrite in_app_iff; right; left; auto | eauto]|].
    intros [] G2 T2 HU2 HT2 (-> & HD2 & HO).
    assert (HN : NoDup (T' ++ dst :: DS)) by (destruct HU1 as [HN _]; apply NoDup_app_iff in HN; tauto).
    apply NoDup_remove_2 in HN. rewrite in_app_iff in HN.
    assert (HR : runs G2 R (m_clone_loop l (length (dl ++ [a'])) dst) (Ret tt)
       (fun _ _ H' T => is_frame H' dst (MkFrame ((dhs ++ [h0]) ++ hs0) pad mask) T)).
    { eapply IH with (S := S2) (DS := DS ++ T').
      - eapply are_hdrs_stable; [exact HL|]. apply (untouched_trans _ G1 _); [via HT1|via HT2].
      - inc.
      - rewrite <- app_assoc. exact HD2.
      - apply are_hdrs_app.
        + eapply are_hdrs_stable; [exact HDS|]. apply (untouched_trans _ G1 _); [via HS|]. intros x HX. apply HO. intros ->. tauto.
        + rewrite <- (app_nil_r T'). constructor; [|constructor]. eapply is_hdr_stable; [exact HC|]. intros x HX. apply HO. intros ->. tauto.
      - eapply in_use_perm; [exact HU2|]. perm. }
    rewrite app_length in HR. cbn [length] in HR. rewrite Nat.add_1_r in HR. rewrite <- app_assoc in HR. exact HR.
Qed.

Lemma runs_frame_clone : forall H R a f S, in_use H R -> is_frame H a f S -> incl S R ->
  runs H R (m_frame_clone (Some a)) (Ret tt) (fun _ p H' T => exists a', p = Some a' /\ is_frame H' a' f T).
Proof.
  intros H R a f S HU (l & S' & HA & HS & ->) HI. cbn [m_frame_clone]. unfold m_frame_alloc.
  eapply runs_then; [apply runs_alloc; exact HU|]. intros dst G1 T1 HU1 HT1 [-> HD].
  assert (HF : runs G1 R (m_frame_copy dst a) (Ret tt) (fun _ _ H' T => is_frame H' dst f T)).
  { unfold m_frame_copy.
    assert (HA1 : holds G1 a false (BFrame (MkMFrame l (fr_padding f) (fr_has_mask f)))) by (eapply holds_untouched; [exact HT1|apply HI; left; auto|auto]).
    eapply runs_step; [eapply read_frame_eq; exact HA1|].
    eapply runs_then; [eapply runs_write with (T := [dst]); [exact HU1|left; auto|eauto]|].
    intros [] G2 T2 HU2 HT2 (-> & HD2 & HO). cbn [mr_stack].
    assert (HR : runs G2 R (m_clone_loop l (length (@nil addr)) dst) (Ret tt)
       (fun _ _ H' T => is_frame H' dst (MkFrame ([] ++ fr_stack f) (fr_padding f) (fr_has_mask f)) T)).
    { eapply runs_clone_loop with (S := S') (DS := []); [ | | exact HD2 | constructor | exact HU2].
      - eapply are_hdrs_stable; [exact HS|]. apply (untouched_trans _ G1 _); [via HT1|via HT2].
      - inc. }
    destruct f; exact HR. }
  eapply runs_then; [exact HF|]. intros [] G3 T3 HU3 HT3 HH. eapply runs_ret; [exact HU3|]. eauto.
Qed.

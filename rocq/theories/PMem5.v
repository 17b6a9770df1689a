(** Memory: named frames, the end of the commands, start and end of the process. *)

From Verif Require Import SpecExec PCmd PPair.
From Verif Require Import SpecMem PMem PMem2 PMem3 PMem4 BaseFacts.
From Coq Require Import Permutation.

(** ** Named frames *)

Lemma are_cmds_app : forall H l1 cs1 S1 l2 cs2 S2, are_cmds H l1 cs1 S1 -> are_cmds H l2 cs2 S2 ->
  are_cmds H (l1 ++ l2) (cs1 ++ cs2) (S1 ++ S2).
Proof. intros H l1 cs1 S1 l2 cs2 S2 HA HB. induction HA; cbn [app]; auto. rewrite <- app_assoc. constructor; auto. Qed.

Lemma are_cmds_one : forall H m c S, is_cmd H m c S -> are_cmds H [m] [c] S.
Proof. intros. rewrite <- (app_nil_r S). constructor; auto. constructor. Qed.

Lemma find_named_eq : forall n H ms cs S, are_cmds H ms cs S ->
  match find_named n cs with
  | None => m_find_named n ms H = MRet None H
  | Some d => exists m Sd, m_find_named n ms H = MRet (Some m) H /\ is_cmd H m d Sd /\ incl Sd S /\ In d cs
  end.
Proof.
  intros n H ms cs S HA. induction HA as [|m c S1 l cs S2 HC HL IH]; cbn [find_named m_find_named]; [reflexivity|].
  assert (HS : match find_named n cs with
    | None => m_find_named n l H = MRet None H
    | Some d => exists m Sd, m_find_named n l H = MRet (Some m) H /\ is_cmd H m d Sd /\ incl Sd (S1 ++ S2) /\ In d (c :: cs)
    end).
  { destruct (find_named n cs) as [d|]; auto. destruct IH as (x & Sd & A & B & C & D). exists x, Sd. split; auto. split; auto. split; [inc|right; auto]. }
  pose proof HC as (E1 & _ & _ & HN & _ & HB & _). rewrite E1.
  destruct (c_type c); auto.
  destruct (mc_buf m), (c_buf c); cbn [is_buf] in HB; try tauto; auto.
  destruct (mc_name m) as [na|], (c_name c) as [nm|]; cbn [is_str] in HN; try tauto; auto.
  unfold mbind. erewrite read_str_eq by eauto. destruct (String.eqb nm n); auto.
  exists m, S1. split; [reflexivity|]. split; auto. split; [inc|left; auto].
Qed.

(** The frame, its bytes and its mask come together. *)
Definition framed (c : cmd) : Prop :=
  (c_buf c = None <-> c_frame c = None) /\ (c_buf c = None -> c_mask c = None).

Lemma find_named_buf : forall n cs d, find_named n cs = Some d -> c_buf d <> None.
Proof.
  intros n cs d E. apply find_named_some in E. destruct E as (l & r & _ & HD & _). destruct HD as (_ & _ & HB). auto.
Qed.

Lemma runs_pair_one : forall H R ms all S m c S1, are_cmds H ms all S -> Forall framed all -> framed c -> incl S (S1 ++ R) ->
  is_cmd H m c S1 -> in_use H (S1 ++ R) ->
  runs H R (m_pair_one ms m) (Ret tt)
    (fun _ x H' T => is_cmd H' (fst x) (paired all c) T /\ snd x = Z.of_nat (length (uref all c))).
Proof.
  intros H R ms all S m c S1 HM HFR HFC HI HC HU. unfold paired. rewrite pair_one_spec. unfold uref, reference, is_name, m_pair_one.
  pose proof HC as (E1 & E2 & E3 & HN & HA & HB & HK & SF & HF & ES).
  assert (HSAME : runs H R (ret (m, 0)) (Ret tt)
    (fun _ x H' T => is_cmd H' (fst x) c T /\ snd x = 0)).
  { eapply runs_ret; [exact HU|]. split; [exact HC|]. reflexivity. }
  assert (ERR : runs H R (ret (m, 1)) (Ret tt)
    (fun _ x H' T => is_cmd H' (fst x) c T /\ snd x = 1)).
  { eapply runs_ret; [exact HU|]. split; [exact HC|]. reflexivity. }
  rewrite E1.
  destruct (cmd_type_eqb (c_type c) CT_name) eqn:ET.
  { destruct (c_type c); try discriminate. exact HSAME. }
  assert (HC0 : forall X (a b : X), match c_type c with CT_name => a | _ => b end = b) by (destruct (c_type c); auto; discriminate).
  rewrite HC0.
  destruct (mc_name m) as [na|] eqn:EMN, (c_name c) as [n|] eqn:ECN; cbn [is_str] in HN; try tauto.
  2:{ destruct (c_buf c); exact HSAME. }
  destruct (mc_buf m) as [ba|] eqn:EMB, (c_buf c) as [b|] eqn:ECB; cbn [is_buf] in HB; try tauto; try exact HSAME.
  eapply runs_step; [eapply read_str_eq; exact HN|].
  pose proof (find_named_eq n _ _ _ _ HM) as HFN. rewrite definedb_find.
  destruct (find_named n all) as [d|] eqn:EFN; cbn [is_some].
  2:{ eapply runs_step; [exact HFN|]. exact ERR. }
  destruct HFN as (md & Sd & EQ & HD & HDI & HDN). eapply runs_step; [exact EQ|].
  assert (HDF : c_frame d <> None).
  { assert (HDF : framed d) by (rewrite Forall_forall in HFR; auto). destruct HDF as [HDF _]. pose proof (find_named_buf _ _ _ EFN). tauto. }
  pose proof HD as (D1 & D2 & D3 & DN & DA & DB & DM & DF & DFR & DS).
  destruct (mc_frame md) as [fa|], (c_frame d) as [fv|] eqn:ECF; cbn [is_frame_opt] in DFR; try tauto.
  assert (HDIR : incl Sd (S1 ++ R)) by (intros x HX; auto).
  eapply runs_then; [apply runs_frame with (S := S1); eapply runs_frame_clone; [exact HU|exact DFR|subst Sd; inc]|].
  intros p G1 T1 HU1 HT1 (Tf & -> & (a' & -> & HF1) & HK1).
  assert (HU1R : untouched H G1 (S1 ++ R)) by (apply untouched_app; auto).
  assert (HD1 : untouched H G1 Sd) by (eapply untouched_incl; [exact HU1R|exact HDIR]).
  assert (EX : Sd = the (mc_name md) ++ the (mc_arg0 md) ++ DF ++ the (mc_buf md) ++ the (mc_mask md)) by auto.
  assert (IB : incl (the (mc_buf md)) Sd) by (rewrite EX; inc).
  assert (IM : incl (the (mc_mask md)) Sd) by (rewrite EX; inc). clear DS EX.
  eapply runs_then; [apply runs_frame with (S := Tf ++ S1); eapply runs_bclone; [exact HU1|eapply is_buf_stable; [exact DB|]; eapply untouched_incl; [exact HD1|exact IB]]|].
  intros pb G2 T2 HU2 HT2 (Tb & -> & (-> & HB2) & HK2).
  assert (HD2 : untouched H G2 Sd).
  { apply (untouched_trans _ G1 _); [exact HD1|]. assert (HX : untouched G1 G2 (S1 ++ R)) by (apply untouched_app; split; [via HK2|exact HT2]). eapply untouched_incl; [exact HX|exact HDIR]. }
  eapply runs_then; [apply runs_frame with (S := the pb ++ Tf ++ S1); eapply runs_bclone; [exact HU2|eapply is_buf_stable; [exact DM|]; eapply untouched_incl; [exact HD2|exact IM]]|].
  intros pm G3 T3 HU3 HT3 (Tm & -> & (-> & HM3) & HK3).
  destruct HFC as [F1 F2]. assert (EF : c_frame c = None) by (apply F1; auto). assert (EK : c_mask c = None) by auto.
  rewrite EF in HF. rewrite EK in HK. destruct (mc_frame m); cbn [is_frame_opt] in HF; [tauto|]. subst SF.
  destruct (mc_mask m); cbn [is_buf] in HK; [tauto|]. cbn [the app] in ES. rewrite !app_nil_r in ES.
  eapply runs_ret with (T := [na] ++ the (mc_arg0 m) ++ Tf ++ the pb ++ the pm).
  { eapply in_use_perm; [exact HU3|]. rewrite ES. perm. }
  cbn [fst snd length]. split; [|reflexivity]. unfold is_cmd, with_frame_of.
  cbn [mc_type mc_done mc_repeat mc_name mc_arg0 mc_buf mc_mask mc_frame c_type c_done c_repeat c_name c_arg0 c_buf c_mask c_frame].
  rewrite ECN. split; [auto|]. split; [auto|]. split; [auto|].
  assert (HT : untouched H G3 S1) by (apply (untouched_trans _ G1 _); [exact HK1|]; apply (untouched_trans _ G2 _); [via HK2|via HK3]).
  split; [eapply holds_untouched; [exact HT|rewrite ES; left; auto|exact HN]|].
  split; [eapply is_str_stable; [exact HA|rewrite ES in HT; via HT]|].
  split; [eapply is_buf_stable; [exact HB2|via HK3]|]. split; [exact HM3|].
  exists Tf. split; [|reflexivity]. rewrite ECF. cbn [is_frame_opt]. eapply is_frame_stable; [exact HF1|]. apply (untouched_trans _ G2 _); [via HK2|via HK3].
Qed.

Lemma find_named_paired : forall n all l r, find_named n (map (paired all) l ++ r) = find_named n (l ++ r).
Proof.
  intros n all. induction l as [|c l IH]; intros r; [reflexivity|]. cbn [map app find_named]. rewrite IH.
  unfold paired. rewrite pair_one_spec. destruct (reference c) as [k|] eqn:E; [|reflexivity].
  unfold reference, is_name in E. destruct (find_named k all); [|reflexivity]. unfold with_frame_of. cbn [c_type c_buf c_name fst].
  destruct (c_type c); try reflexivity. discriminate.
Qed.

Lemma paired_eq : forall a b c, (forall n, find_named n a = find_named n b) -> paired a c = paired b c /\ uref a c = uref b c.
Proof.
  intros a b c E. unfold paired, uref. rewrite !pair_one_spec. destruct (reference c) as [n|]; [|auto]. rewrite !definedb_find, E. auto.
Qed.

Lemma paired_framed : forall all c, Forall framed all -> framed c -> framed (paired all c).
Proof.
  intros all c HA HC. unfold paired. rewrite pair_one_spec. destruct (reference c) as [n|]; [|auto]. destruct (find_named n all) as [d|] eqn:E; [|auto].
  cbn [fst]. apply find_named_some in E. destruct E as (l & r & -> & _). apply Forall_app in HA. destruct HA as [_ HA]. apply Forall_inv in HA.
  unfold framed, with_frame_of in *. cbn [c_buf c_frame c_mask]. auto.
Qed.

Lemma runs_pair_loop : forall rv pv rest pre H R S1 S2, Forall framed (pv ++ rv) ->
  are_cmds H pre (map (paired (pv ++ rv)) pv) S1 -> are_cmds H rest rv S2 -> in_use H ((S1 ++ S2) ++ R) ->
  runs H R (m_pair_loop pre rest) (Ret tt)
    (fun _ x H' T => are_cmds H' (fst x) (map (paired (pv ++ rv)) (pv ++ rv)) T /\
                     snd x = Z.of_nat (length (flat_map (uref (pv ++ rv)) rv))).
Proof.
  induction rv as [|c rv IH]; intros pv rest pre H R S1 S2 HFR HP HR HU.
  - inversion HR; subst. cbn [m_pair_loop]. rewrite !app_nil_r in *. eapply runs_ret; [exact HU|]. split; [exact HP|reflexivity].
  - inversion HR as [|m c0 Sc l cs Sr HC HL]; subst. cbn [m_pair_loop]. set (all := pv ++ c :: rv) in *.
    assert (HFc : framed c) by (rewrite Forall_forall in HFR; apply HFR; apply in_or_app; right; left; auto).
    assert (HFall : Forall framed (map (paired all) pv ++ c :: rv)).
    { apply Forall_app. unfold all in HFR at 1. pose proof HFR as HFR0. apply Forall_app in HFR. destruct HFR as [F1 F2]. split; [|exact F2].
      apply Forall_forall. intros x HX. apply in_map_iff in HX. destruct HX as (y & <- & HY). apply paired_framed; auto. rewrite Forall_forall in F1. auto. }
    assert (HPE : forall x, paired (map (paired all) pv ++ c :: rv) x = paired all x /\ uref (map (paired all) pv ++ c :: rv) x = uref all x).
    { intros x. apply paired_eq. intros n. apply find_named_paired. }
    eapply runs_then; [apply runs_frame with (S := S1 ++ Sr); eapply runs_pair_one with (S := S1 ++ Sc ++ Sr) (S1 := Sc) (all := map (paired all) pv ++ c :: rv) (c := c);
      [apply are_cmds_app; [exact HP|exact HR]|exact HFall|exact HFc|inc|exact HC|eapply in_use_perm; [exact HU|perm]]|].
    intros [c' e] G1 T1 HU1 HT1 (Sc' & -> & [HC1 EE] & HK1). cbn [fst snd] in *.
    rewrite (proj1 (HPE c)) in HC1. rewrite (proj2 (HPE c)) in EE.
    specialize (IH (pv ++ [c]) l (pre ++ [c']) G1 R (S1 ++ Sc') Sr). rewrite <- app_assoc in IH. cbn [app] in IH. fold all in IH.
    eapply runs_then; [apply IH|].
    + exact HFR.
    + rewrite map_app. apply are_cmds_app; [eapply are_cmds_stable; [exact HP|via HK1]|apply are_cmds_one; exact HC1].
    + eapply are_cmds_stable; [exact HL|via HK1].
    + eapply in_use_perm; [exact HU1|perm].
    + intros [cs e'] G2 T2 HU2 HT2 [HQ EQ]. eapply runs_ret; [exact HU2|]. cbn [fst snd] in *. split; [exact HQ|]. cbn [flat_map]. rewrite app_length. lia.
Qed.

Lemma runs_cleanup : forall ms cs H R S, are_cmds H ms cs S -> in_use H (S ++ R) ->
  runs H R (m_cleanup ms) (Ret tt) (fun _ _ _ T => T = []).
Proof.
  induction ms as [|m ms IH]; intros cs H R S HA HU; inversion HA as [|m0 c0 S1 l0 cs0 S2 HC HL]; subst; cbn [m_cleanup].
  - eapply runs_ret with (T := []); auto.
  - rewrite <- app_assoc in HU. eapply runs_seq_free with (S2 := S2) (Q := fun _ _ => True).
    + eapply runs_mono; [eapply runs_cmd_destruct; eauto|]. auto.
    + intros [] G HG HT _. eapply IH; [|exact HG]. eapply are_cmds_stable; [eauto|via HT].
Qed.

(** ** Every parsed command has a frame iff it has bytes *)

Lemma framed_finish : forall ct n a rep i ws k c, finish_cmd ct n a rep i ws = Ret (COk k c) -> framed c.
Proof.
  intros ct n a rep i ws k c E. unfold finish_cmd in E. binv E. destruct a0 as [[[|m] f]|]; [| |discriminate].
  - destruct ct; try discriminate. injection E as _ <-. unfold framed. cbn. tauto.
  - binv E. destruct a0 as [f1 b]. binv E. injection E as _ <-. unfold framed. cbn. split; [split; discriminate|discriminate].
Qed.

Lemma framed_cmd_frame : forall ct n a rep i ws k c, cmd_frame ct n a rep i ws = Ret (COk k c) -> framed c.
Proof.
  intros ct n a rep i ws k c E. unfold cmd_frame in E. destruct ws as [|w [|x r]]; try (eapply framed_finish; exact E).
  destruct (_ && _); [|eapply framed_finish; exact E]. injection E as _ <-. unfold framed. cbn. tauto.
Qed.

Lemma framed_argc_cmd : forall ws k c, argc_cmd ws = Ret (COk k c) -> framed c.
Proof.
  intros ws k c E. unfold argc_cmd in E. destruct ws as [|w r]; [discriminate|]. destruct (cmd_word w) as [ct|]; [|destruct (String.eqb w "help"); discriminate].
  destruct r as [|a r2]; [discriminate|]. destruct ct; try (eapply framed_cmd_frame; exact E).
  destruct r2 as [|x r3]; [discriminate|]. destruct (_ || _); [|eapply framed_cmd_frame; exact E]. destruct r3; [discriminate|]. eapply framed_cmd_frame; exact E.
Qed.

Lemma framed_loop : forall k ws cs, argc_cmds_loop k ws = Ret (Some cs) -> Forall framed cs.
Proof.
  induction k as [|k IH]; intros ws cs E; cbn [argc_cmds_loop] in E.
  - destruct ws; [|discriminate]. apply ret_inj, some_inj in E. subst. constructor.
  - destruct ws as [|w r]; [apply ret_inj, some_inj in E; subst; constructor|]. binv E. destruct a as [| |n c]; try discriminate. binv E.
    destruct a as [cs'|]; [|discriminate]. apply ret_inj, some_inj in E. subst. constructor; [eapply framed_argc_cmd; eauto|eauto].
Qed.

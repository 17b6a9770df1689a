(** Tests written in words: named frames, interfaces and frames (C84). *)

From Coq Require Import Permutation.
From Verif Require Import PTextIp PTextNum Frame SpecParse SpecFrame Cmd Exec SpecExec PCmd PPair PExec SpecWhole SpecExact SpecForm SpecWish PWish4 SpecTest PTest.

(** What the commands are when the named frames are filled in. *)
Definition realised (T : list step) (x : step) (c : cmd) : Prop :=
  match x with
  | Send ifn rep s => exists ws, resolved T s = [ws] /\ sayable ws /\ holds ws c /\ c_type c = CT_tx /\ c_arg0 c = Some ifn /\ c_repeat c = copies rep
  | Expect ifn s => exists ws, resolved T s = [ws] /\ sayable ws /\ holds ws c /\ c_type c = CT_rx /\ c_arg0 c = Some ifn
  | Nothing ifn => c_type c = CT_rx /\ c_arg0 c = Some ifn /\ c_buf c = None /\ c_frame c = None
  | Define n ws => c_type c = CT_name /\ sayable ws /\ holds ws c
  end.

Lemma written_defines : forall x c n, written x c -> defines c n -> exists ws, x = Define n ws /\ holds ws c.
Proof.
  intros x c n H [D1 [D2 D3]]. destruct H; try discriminate D1. cbn [c_name] in D2. apply some_inj in D2. subst n0. exists ws. split; [reflexivity|]. exists f, b, m. auto.
Qed.

Lemma written_define : forall n ws c, written (Define n ws) c -> defines c n /\ holds ws c.
Proof. intros n ws c H. inversion H; subst. split; [split; [reflexivity|split; [reflexivity|discriminate]]|]. exists f, b, m. auto. Qed.

Lemma first_meaning : forall T cs n d, Forall2 written T cs -> first_definition cs n d -> exists ws, meaning T n = Some ws /\ holds ws d /\ In (Define n ws) T.
Proof.
  intros T cs n d H. induction H as [|x c T cs HX HT IH]; intros [l [r [E [D1 D2]]]]; [destruct l; discriminate E|]. destruct l as [|y l]; cbn [app] in E.
  - assert (c = d) by congruence. subst d. destruct (written_defines _ _ _ HX D1) as [ws [-> HH]]. exists ws. cbn [meaning]. rewrite String.eqb_refl. split; [reflexivity|]. split; [exact HH|left; reflexivity].
  - assert (c = y) by congruence. assert (cs = l ++ d :: r) by congruence. subst y cs. destruct IH as [ws [I1 [I2 I3]]].
    { exists l, r. split; [reflexivity|]. split; [exact D1|]. intros z Hz. apply D2. right. exact Hz. }
    exists ws. split; [|split; [exact I2|right; exact I3]]. destruct x as [ifn rep s|ifn s|ifn|m ws']; cbn [meaning]; auto. destruct (String.eqb_spec m n); [|exact I1]. subst m. exfalso. apply (D2 c); [left; reflexivity|]. apply (written_define _ _ _ HX).
Qed.

Lemma meaning_defined : forall T cs n, Forall2 written T cs -> meaning T n <> None -> definedb cs n = true.
Proof.
  intros T cs n H. induction H as [|x c T cs HX HT IH]; intros HM; [destruct HM; reflexivity|]. cbn [definedb existsb]. apply orb_true_iff. destruct x as [ifn rep s|ifn s|ifn|m ws]; cbn [meaning] in HM; auto.
  destruct (String.eqb m n) eqn:E; [|right; apply IH; exact HM]. left. inversion HX; subst. cbn [is_name c_type cmd_type_eqb c_buf is_some c_name andb]. exact E.
Qed.

Lemma written_reference : forall x c n, written x c -> reference c = Some n -> In n (names_in x).
Proof.
  intros x c n H. unfold reference. destruct H as [ifn rep s nm f b m H|ifn s nm f b m H|ifn|nm ws f b m H]; cbn [is_name c_type cmd_type_eqb c_buf c_name]; try discriminate;
  destruct s as [ws|k]; cbn [held] in H; [destruct H as [-> [f0 [b0 [-> [-> _]]]]]; discriminate| |destruct H as [-> [f0 [b0 [-> [-> _]]]]]; discriminate|]; destruct H as [-> [-> [-> ->]]]; intros E; apply some_inj in E; subst k; left; reflexivity.
Qed.

Lemma flat_map_nil : forall A B (g : A -> list B) l, (forall x, In x l -> g x = []) -> flat_map g l = [].
Proof. intros A B g l. induction l as [|x l IH]; intros H; [reflexivity|]. cbn [flat_map]. rewrite (H x) by (left; reflexivity). apply IH. intros y Hy. apply H. right. exact Hy. Qed.

Lemma proper_names : forall T cs, proper T -> Forall2 written T cs -> undefined_refs cs = [].
Proof.
  intros T cs HT HW. apply flat_map_nil. intros c Hc. destruct (reference c) as [n|] eqn:E; [|reflexivity]. destruct (Forall2_in_r _ _ _ _ _ HW c Hc) as [x [Hx HX]]. rewrite (meaning_defined T cs n HW); [reflexivity|]. eapply (pr_names _ HT); [exact Hx|eapply written_reference; eauto].
Qed.

Lemma held_refers : forall s n f b m ct a d r, ct <> CT_name -> held s n f b m -> forall k, refers_to (MkCmd ct n a f b m d r) k <-> s = Named k.
Proof.
  intros s n f b m ct a d r HC H k. unfold refers_to. cbn [is_name c_type c_buf c_name]. destruct s as [ws|j]; cbn [held] in H.
  - destruct H as [-> [f0 [b0 [-> [-> _]]]]]. split; [intros [_ [X _]]; discriminate|discriminate].
  - destruct H as [-> [-> [-> ->]]]. split; [intros [_ [_ X]]; congruence|]. intros X. split; [unfold is_name; cbn [c_type]; destruct ct; auto; congruence|]. cbn [c_buf c_name]. split; [reflexivity|congruence].
Qed.

Lemma holds_like : forall ws c d, holds ws d -> holds ws (with_frame_of d c).
Proof. intros ws c d [f [b [m [H1 [H2 [H3 H4]]]]]]. exists f, b, m. cbn. auto. Qed.

Lemma source_filled : forall T cs s n f b m ct a r c', proper T -> Forall2 written T cs -> (forall ws, s = Words ws -> sayable ws) -> ct <> CT_name -> held s n f b m ->
  filled_in cs (MkCmd ct n a f b m false r) c' ->
  exists ws, resolved T s = [ws] /\ sayable ws /\ holds ws c' /\ c_type c' = ct /\ c_arg0 c' = a /\ c_repeat c' = r.
Proof.
  intros T cs s n f b m ct a r c' HT HW HS HC H [F1 F2]. pose proof (held_refers s n f b m ct a false r HC H) as HR. destruct s as [ws|k].
  - rewrite F2; [|intros j X; apply HR in X; discriminate]. exists ws. split; [reflexivity|]. split; [apply HS; reflexivity|]. split; [|auto]. destruct H as [-> [f0 [b0 [-> [-> H]]]]]. exists f0, b0, m. auto.
  - destruct (F1 k) as [d [D1 ->]]; [apply HR; reflexivity|]. destruct (first_meaning _ _ _ _ HW D1) as [ws [M1 [M2 M3]]]. exists ws. cbn [resolved]. rewrite M1. split; [reflexivity|]. split; [apply (pr_frames _ HT _ _ M3); left; reflexivity|]. split; [apply holds_like; exact M2|auto].
Qed.

Lemma step_realised : forall T cs x c c', proper T -> Forall2 written T cs -> In x T -> written x c -> filled_in cs c c' -> realised T x c'.
Proof.
  intros T cs x c c' HT HW Hx HX HF. pose proof (pr_frames _ HT x) as HS. destruct HX as [ifn rep s nm f b m H|ifn s nm f b m H|ifn|nm ws f b m H]; cbn [realised].
  - apply (source_filled T cs s nm f b m CT_tx (Some ifn) (copies rep) c'); auto; [|discriminate]. intros ws ->. apply HS; [exact Hx|left; reflexivity].
  - destruct (source_filled T cs s nm f b m CT_rx (Some ifn) 0 c' HT HW) as [ws K]; auto; [|discriminate|exists ws; intuition]. intros ws ->. apply HS; [exact Hx|left; reflexivity].
  - destruct HF as [_ F2]. rewrite F2; [cbn; auto|]. intros n [_ [_ X]]. discriminate X.
  - destruct HF as [_ F2]. rewrite F2; [|intros n [X _]; discriminate X]. split; [reflexivity|]. split; [apply HS; [exact Hx|left; reflexivity]|]. exists f, b, m. auto.
Qed.

Lemma test_realised : forall T cs cs', proper T -> Forall2 written T cs -> Forall2 (filled_in cs) cs cs' -> Forall2 (realised T) T cs'.
Proof.
  intros T cs cs' HT HW HF. assert (G : forall U ds ds', (forall x, In x U -> In x T) -> Forall2 written U ds -> Forall2 (filled_in cs) ds ds' -> Forall2 (realised T) U ds').
  { induction U as [|x U IH]; intros ds ds' HU H1 H2; inversion H1; subst; inversion H2; subst; [constructor|]. constructor; [|eapply IH; eauto; intros z Hz; apply HU; right; exact Hz]. eapply step_realised; eauto. apply HU. left. reflexivity. }
  eapply G; eauto.
Qed.

(** *** What is to be done on an interface *)
Lemma realised_if : forall T x c, realised T x c -> map interface_of (filter traffic [c]) = step_if x.
Proof.
  intros T x c H. destruct x as [ifn rep s|ifn s|ifn|n ws]; cbn [realised] in H; cbn [filter]; unfold traffic, is_rx, is_tx, interface_of; cbn [step_if].
  - destruct H as [ws [_ [_ [_ [E1 [E2 _]]]]]]. rewrite E1. cbn. rewrite E2. reflexivity.
  - destruct H as [ws [_ [_ [_ [E1 E2]]]]]. rewrite E1. cbn. rewrite E2. reflexivity.
  - destruct H as [E1 [E2 _]]. rewrite E1. cbn. rewrite E2. reflexivity.
  - destruct H as [E1 _]. rewrite E1. reflexivity.
Qed.

Lemma test_interfaces : forall T cs, Forall2 (realised T) T cs -> interfaces cs = used T.
Proof.
  intros T cs H. unfold interfaces, used. f_equal. assert (G : forall U ds, Forall2 (realised T) U ds -> map interface_of (filter traffic ds) = flat_map step_if U); [|apply G; exact H].
  intros U ds K. induction K as [|x c U ds HX HU IH]; [reflexivity|]. cbn [flat_map]. rewrite <- IH, <- (realised_if _ _ _ HX). cbn [filter]. destruct (traffic c); reflexivity.
Qed.

Definition wants (ifn : string) (c : cmd) : bool := (traffic c && on_if ifn c) && (is_rx c && is_some (c_buf c)).
Definition puts_out (ifn : string) (c : cmd) : bool := (traffic c && on_if ifn c) && is_tx c.

Lemma filter_filter : forall A (p q : A -> bool) l, filter q (filter p l) = filter (fun x => p x && q x) l.
Proof. intros A p q l. induction l as [|x l IH]; [reflexivity|]. cbn [filter]. destruct (p x); cbn [filter andb]; [destruct (q x); rewrite IH; reflexivity|exact IH]. Qed.

Lemma holds_some : forall ws c, holds ws c -> is_some (c_buf c) = true.
Proof. intros ws c [f [b [m [_ [_ [H _]]]]]]. rewrite H. reflexivity. Qed.

Definition holding (ws : list wish) (c : cmd) : Prop := sayable ws /\ holds ws c.
Definition holding_times (p : list wish * Z) (c : cmd) : Prop := holding (fst p) c /\ c_repeat c = snd p.

Lemma test_expects : forall T cs ifn, Forall2 (realised T) T cs -> Forall2 holding (to_expect ifn T) (expectations ifn cs).
Proof.
  intros T cs ifn H. unfold expectations, commands_on, to_expect. rewrite filter_filter.
  assert (G : forall U ds, Forall2 (realised T) U ds -> Forall2 holding (flat_map (fun x => match x with Expect i s => if String.eqb i ifn then resolved T s else [] | _ => [] end) U) (filter (wants ifn) ds)); [|apply G; exact H].
  intros U ds K. induction K as [|x c U ds HX HU IH]; [constructor|]. cbn [flat_map filter]. unfold wants at 1, traffic, is_rx, is_tx, on_if. destruct x as [i rep s|i s|i|n ws]; cbn [realised] in HX.
  - destruct HX as [ws [_ [_ [_ [E1 _]]]]]. rewrite E1. cbn [cmd_type_eqb orb andb]. rewrite andb_false_r. exact IH.
  - destruct HX as [ws [E0 [E3 [E4 [E1 E2]]]]]. rewrite E1, E2, E0, (holds_some _ _ E4). cbn [cmd_type_eqb orb andb]. rewrite andb_true_r. destruct (String.eqb i ifn); [|exact IH]. cbn [app]. constructor; [split; auto|exact IH].
  - destruct HX as [E1 [E2 [E3 _]]]. rewrite E1, E2, E3. cbn [is_some]. rewrite !andb_false_r. exact IH.
  - destruct HX as [E1 _]. rewrite E1. exact IH.
Qed.

Lemma test_sends : forall T cs ifn, Forall2 (realised T) T cs -> Forall2 holding_times (to_send ifn T) (transmissions ifn cs).
Proof.
  intros T cs ifn H. unfold transmissions, commands_on, to_send. rewrite filter_filter.
  assert (G : forall U ds, Forall2 (realised T) U ds -> Forall2 holding_times (flat_map (fun x => match x with Send i rep s => if String.eqb i ifn then map (fun ws => (ws, copies rep)) (resolved T s) else [] | _ => [] end) U) (filter (puts_out ifn) ds)); [|apply G; exact H].
  intros U ds K. induction K as [|x c U ds HX HU IH]; [constructor|]. cbn [flat_map filter]. unfold puts_out at 1, traffic, is_rx, is_tx, on_if. destruct x as [i rep s|i s|i|n ws]; cbn [realised] in HX.
  - destruct HX as [ws [E0 [E3 [E4 [E1 [E2 E5]]]]]]. rewrite E1, E2, E0. cbn [cmd_type_eqb orb andb]. rewrite andb_true_r. destruct (String.eqb i ifn); [|exact IH]. cbn [map app]. constructor; [split; [split; auto|exact E5]|exact IH].
  - destruct HX as [ws [_ [_ [_ [E1 _]]]]]. rewrite E1. cbn [cmd_type_eqb orb]. rewrite andb_false_r. exact IH.
  - destruct HX as [E1 _]. rewrite E1. cbn [cmd_type_eqb orb]. rewrite andb_false_r. exact IH.
  - destruct HX as [E1 _]. rewrite E1. exact IH.
Qed.

(** *** Sending and listening interfaces *)
Lemma Forall2_in_l : forall A B (R : A -> B -> Prop) l l', Forall2 R l l' -> forall x, In x l -> exists y, In y l' /\ R x y.
Proof. intros A B R l l' H. induction H as [|x y l l' HX HL IH]; intros z Hz; [destruct Hz|]. destruct Hz as [<-|Hz]; [exists y; split; [left; reflexivity|exact HX]|]. destruct (IH z Hz) as [w [W1 W2]]. exists w. split; [right; exact W1|exact W2]. Qed.

Lemma test_rx : forall T cs ifn, Forall2 (realised T) T cs -> (listening ifn T <-> exists c, In c (commands_on ifn cs) /\ is_rx c = true).
Proof.
  intros T cs ifn H. unfold commands_on. split.
  - intros [HN|[s HN]]; destruct (Forall2_in_l _ _ _ _ _ H _ HN) as [c [Hc HX]]; cbn [realised] in HX; exists c.
    + destruct HX as [E1 [E2 _]]. unfold traffic, is_rx, is_tx, on_if. rewrite filter_In, E1, E2, String.eqb_refl. auto.
    + destruct HX as [ws [_ [_ [_ [E1 E2]]]]]. unfold traffic, is_rx, is_tx, on_if. rewrite filter_In, E1, E2, String.eqb_refl. auto.
  - intros [c [Hc HR]]. apply filter_In in Hc. destruct Hc as [Hc HO]. apply andb_prop in HO. destruct HO as [_ HO]. destruct (Forall2_in_r _ _ _ _ _ H c Hc) as [x [Hx HX]]. unfold is_rx in HR. unfold on_if in HO.
    destruct x as [i rep s|i s|i|n ws]; cbn [realised] in HX.
    + destruct HX as [ws [_ [_ [_ [E1 _]]]]]. rewrite E1 in HR. discriminate.
    + destruct HX as [ws [_ [_ [_ [E1 E2]]]]]. rewrite E2 in HO. apply String.eqb_eq in HO. subst i. right. exists s. exact Hx.
    + destruct HX as [E1 [E2 _]]. rewrite E2 in HO. apply String.eqb_eq in HO. subst i. left. exact Hx.
    + destruct HX as [E1 _]. rewrite E1 in HR. discriminate.
Qed.

Lemma listening_sends : forall T ifn, proper T -> listening ifn T -> to_send ifn T = [].
Proof.
  intros T ifn HT HL. apply flat_map_nil. intros x Hx. destruct x as [i rep s|i s|i|n ws]; try reflexivity. destruct (String.eqb_spec i ifn); [|reflexivity]. subst i. exfalso. apply (pr_sides _ HT ifn); [exists rep, s; exact Hx|exact HL].
Qed.

Lemma used_step : forall T ifn, In ifn (used T) -> sending ifn T \/ listening ifn T.
Proof.
  intros T ifn H. assert (K : In ifn (flat_map step_if T)).
  { unfold used in H. revert H. generalize (flat_map step_if T) as l. induction l as [|x l IH]; intros H; [destruct H|]. cbn [distinct] in H. destruct H as [<-|H]; [left; reflexivity|]. apply filter_In in H. right. apply IH. apply H. }
  apply in_flat_map in K. destruct K as [x [Hx HK]]. destruct x as [i rep s|i s|i|n ws]; cbn [step_if In] in HK; destruct HK as [<-|[]] || destruct HK.
  - left. exists rep, s. exact Hx.
  - right. right. exists s. exact Hx.
  - right. left. exact Hx.
Qed.

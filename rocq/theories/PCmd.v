(** Facts about parsed command lines. *)

From Verif Require Import PTextIp PTextNum Frame PSer SpecParse PParse PMatch SpecFrame PFrame PInv PStep PArgs PPrefix PSoft PFill PGroup PAll PSafe Exec SpecExec.

Ltac crush_bool := repeat match goal with H : (_ && _) = true |- _ => apply andb_prop in H; destruct H | H : (_ || _) = false |- _ => apply orb_false_iff in H; destruct H end.

Lemma argc_empty : argc_frame [] = Ret (Some (0%nat, empty_frame)).
Proof. reflexivity. Qed.

Lemma argc_le : forall ws n f, argc_frame ws = Ret (Some (n, f)) -> (n <= length ws)%nat.
Proof. intros ws n f H. apply parse_frame_bounds in H. apply H. Qed.

Lemma finish_prefix : forall ct name arg0 rep i ws n c, finish_cmd ct name arg0 rep i ws = Ret (COk n c) ->
  exists m, n = (i + m)%nat /\ (m <= length ws)%nat /\ (m = 0%nat -> ct = CT_rx) /\ finish_cmd ct name arg0 rep i (firstn m ws) = Ret (COk n c).
Proof.
  intros ct name arg0 rep i ws n c H. unfold finish_cmd in *. binv H. destruct a as [[m f]|]; [|discriminate].
  pose proof (argc_le _ _ _ E) as Hle. pose proof (argc_prefix _ _ _ m E (le_n m)) as HP. exists m. rewrite HP. cbn [bind].
  destruct m as [|m].
  - destruct ct; try discriminate. assert (n = i) by congruence. split; [lia|]. auto.
  - split; [|split; [auto|split; [lia|auto]]]. binv H. destruct a as [f1 b]. binv H. congruence.
Qed.

Lemma cmd_frame_prefix : forall ct name arg0 rep i ws n c, cmd_frame ct name arg0 rep i ws = Ret (COk n c) ->
  exists m, n = (i + m)%nat /\ (m <= length ws)%nat /\ (m = 0%nat -> ct = CT_rx) /\ cmd_frame ct name arg0 rep i (firstn m ws) = Ret (COk n c).
Proof.
  intros ct name arg0 rep i ws n c H. unfold cmd_frame in H. destruct ws as [|w [|a r]].
  - apply finish_prefix in H. destruct H as [m [H1 [H2 [H3 H4]]]]. exists m. rewrite firstn_nil in *. auto.
  - apply finish_prefix in H. destruct H as [m [H1 [H2 [H3 H4]]]]. exists m. split; [auto|split; [auto|split; [auto|]]]. destruct m as [|[|m]]; cbn [firstn] in *; auto.
  - destruct (String.eqb w "name" && negb (cmd_type_eqb ct CT_name)) eqn:E.
    + exists 2%nat. assert (n = (i + 2)%nat) by congruence. split; [auto|]. split; [cbn; lia|]. split; [lia|]. unfold cmd_frame. cbn [firstn]. rewrite E. auto.
    + apply finish_prefix in H. destruct H as [m [H1 [H2 [H3 H4]]]]. exists m. split; [auto|split; [auto|split; [auto|]]].
      destruct m as [|[|m]]; cbn [firstn] in *; auto. unfold cmd_frame. rewrite E. auto.
Qed.

Lemma cmd_prefix : forall ws n c, argc_cmd ws = Ret (COk n c) ->
  (0 < n <= length ws)%nat /\ argc_cmd (firstn n ws) = Ret (COk n c).
Proof.
  intros ws n c H. unfold argc_cmd in H. destruct ws as [|w r]; [discriminate|]. destruct (cmd_word w) as [ct|] eqn:Ew; [|destruct (String.eqb w "help"); discriminate].
  destruct r as [|a r2]; [discriminate|].
  assert (K : forall name arg0 rep, cmd_frame ct name arg0 rep 2 r2 = Ret (COk n c) -> (0 < n <= length (w :: a :: r2))%nat /\ exists m, n = S (S m) /\ (m = 0%nat -> ct = CT_rx) /\ cmd_frame ct name arg0 rep 2 (firstn m r2) = Ret (COk n c)).
  { intros name arg0 rep HC. apply cmd_frame_prefix in HC. destruct HC as [m [H1 [H2 [H3 H4]]]]. split; [cbn [length]; lia|]. exists m. auto. }
  destruct ct.
  - destruct (K _ _ _ H) as [Hn [m [-> [_ HC]]]]. split; [exact Hn|]. cbn [firstn]. unfold argc_cmd. rewrite Ew. auto.
  - destruct (K _ _ _ H) as [Hn [m [-> [_ HC]]]]. split; [exact Hn|]. cbn [firstn]. unfold argc_cmd. rewrite Ew. auto.
  - apply cmd_frame_prefix in H. destruct H as [m [H1 [H2 [H3 H4]]]]. split; [cbn [length] in *; lia|]. subst n. destruct m as [|m]; [specialize (H3 eq_refl); discriminate|].
    cbn [firstn plus] in *. unfold argc_cmd. rewrite Ew. auto.
  - destruct (K _ _ _ H) as [Hn [m [-> [_ HC]]]]. split; [exact Hn|]. cbn [firstn]. unfold argc_cmd. rewrite Ew. auto.
  - destruct r2 as [|x r3]; [discriminate|]. destruct (String.eqb x "rep" || String.eqb x "repeat") eqn:Ex.
    + destruct r3 as [|t r4]; [discriminate|]. apply cmd_frame_prefix in H. destruct H as [m [H1 [H2 [H3 H4]]]]. subst n. split; [cbn [length plus]; lia|].
      cbn [firstn plus]. unfold argc_cmd. rewrite Ew, Ex. auto.
    + apply cmd_frame_prefix in H. destruct H as [m [H1 [H2 [H3 H4]]]]. subst n. split; [cbn [length plus] in *; lia|].
      destruct m as [|m]; [specialize (H3 eq_refl); discriminate|]. cbn [firstn plus] in *. unfold argc_cmd. rewrite Ew, Ex. auto.
Qed.

Lemma cmds_segments : forall slots ws cs, argc_cmds_loop slots ws = Ret (Some cs) ->
  exists segs, concat segs = ws /\ Forall2 command_words segs cs /\ (length cs <= slots)%nat.
Proof.
  induction slots as [|slots IH]; intros ws cs H; cbn [argc_cmds_loop] in H; (destruct ws as [|w r]; [assert (cs = []) by congruence; subst; exists []; split; [auto|split; [constructor|cbn; lia]]|]).
  - discriminate.
  - binv H. destruct a as [| |n c]; try discriminate. binv H. destruct a as [cs1|]; [|discriminate]. assert (cs = c :: cs1) by congruence. subst cs.
    destruct (cmd_prefix _ _ _ E) as [Hn HP]. apply IH in E0. destruct E0 as [segs [S1 [S2 S3]]]. exists (firstn n (w :: r) :: segs). split; [|split].
    + cbn [concat]. rewrite S1. apply firstn_skipn.
    + constructor; [|auto]. unfold command_words. rewrite HP. rewrite firstn_length_le by lia. auto.
    + cbn [length]. lia.
Qed.

(** *** What parsed commands look like *)
Record cmd_good (c : cmd) : Prop := {
  g_done : c_done c = false;
  g_if : traffic c = true -> exists a, c_arg0 c = Some a;
  g_frame : forall b, c_buf c = Some b -> exists f, c_frame c = Some f;
  g_buf : c_buf c = None -> is_rx c = true \/ c_name c <> None;
  g_mask : forall m, c_mask c = Some m -> exists b, c_buf c = Some b /\ length m = length b;
  g_rep : 0 <= c_repeat c < 2 ^ 32;
  g_bytes : forall b, c_buf c = Some b -> Forall is_byte b /\ 60 <= Z.of_nat (length b) <= size_limit }.

Lemma memset_len : forall m i v n b, memset_in m i v n = Ret b -> length b = length m.
Proof.
  intros m i v n b H. unfold memset_in in H. destruct (n <? 0) eqn:E1; [discriminate|]. destruct ((i <? 0) || (zlen m <? i + n)) eqn:E2; [discriminate|]. apply ret_inj in H. subst b.
  apply orb_false_iff in E2. destruct E2 as [E2 E3]. unfold zlen in *. rewrite !app_length, firstn_length, repeat_length, skipn_length. lia.
Qed.

Lemma mask_length : forall f f1 b m, frame_to_buf f = Ret (f1, b) -> frame_mask_to_buf f1 = Ret m -> length m = length b.
Proof.
  intros f f1 b m H K. apply frame_to_buf_inv in H. destruct H as [_ [_ [_ [_ H]]]]. unfold frame_mask_to_buf in K. binv K. apply len_from_inv in E. cbn [skipn] in E. destruct E as [-> _].
  binv K. apply copy_stack_len in H. apply copy_stack_len in K. rewrite H, K. destruct (_ <? 60); [eapply memset_len; eauto|apply ret_inj in E; subst; auto].
Qed.

Lemma frame_range : forall f f1 b, frame_to_buf f = Ret (f1, b) -> Forall is_byte b /\ 60 <= Z.of_nat (length b) <= size_limit.
Proof.
  intros f f1 b H. split; [eapply emitted_bytes; eauto|]. rewrite (emitted_length _ _ _ H). unfold frame_to_buf in H. binv H. binv H. binv H. apply len_from_inv in E0. cbn [skipn] in E0. destruct E0 as [-> E0].
  assert (f1 = MkFrame a (fr_padding f) (fr_has_mask f)) by congruence. subst f1. cbn [fr_stack]. rewrite sum_sizes_stack. unfold size_limit in *. lia.
Qed.

Lemma finish_good : forall ct name arg0 rep i ws n c, finish_cmd ct name arg0 rep i ws = Ret (COk n c) ->
  (ct = CT_rx \/ ct = CT_tx -> exists a, arg0 = Some a) -> 0 <= rep < 2 ^ 32 -> c_type c = ct /\ c_arg0 c = arg0 /\ c_name c = name /\ c_repeat c = rep /\ cmd_good c.
Proof.
  intros ct name arg0 rep i ws n c H Ha Hr. unfold finish_cmd in H. binv H. destruct a as [[m f]|]; [|discriminate].
  assert (HT : forall f b m, traffic (MkCmd ct name arg0 f b m false rep) = true -> exists a, arg0 = Some a).
  { intros. apply Ha. unfold traffic, is_rx, is_tx in H0. cbn [c_type] in H0. destruct ct; try discriminate; auto. }
  destruct m as [|m].
  - destruct ct; try discriminate. assert (c = MkCmd CT_rx name arg0 None None None false rep) by congruence. subst c. repeat (split; [reflexivity|]).
    constructor; cbn [c_done c_arg0 c_buf c_name c_mask c_repeat]; auto; try discriminate.
  - binv H. destruct a as [f1 b]. binv H. assert (c = MkCmd ct name arg0 (Some f1) (Some b) a false rep) by congruence. subst c. repeat (split; [reflexivity|]).
    constructor; cbn [c_done c_arg0 c_buf c_name c_mask c_repeat c_frame]; auto; try discriminate; eauto.
    2: { intros b0 Hb. assert (b0 = b) by congruence. subst b0. eapply frame_range; eauto. }
    intros mb ->. exists b. split; [auto|]. destruct (fr_has_mask f1); [|discriminate]. binv E1. eapply mask_length; [eauto|]. congruence.
Qed.

Lemma cmd_frame_good : forall ct name arg0 rep i ws n c, cmd_frame ct name arg0 rep i ws = Ret (COk n c) ->
  (ct = CT_rx \/ ct = CT_tx -> exists a, arg0 = Some a) -> 0 <= rep < 2 ^ 32 -> c_type c = ct /\ c_arg0 c = arg0 /\ c_repeat c = rep /\ cmd_good c.
Proof.
  intros ct name arg0 rep i ws n c H Ha Hr.
  assert (K : finish_cmd ct name arg0 rep i ws = Ret (COk n c) -> c_type c = ct /\ c_arg0 c = arg0 /\ c_repeat c = rep /\ cmd_good c).
  { intros X. destruct (finish_good _ _ _ _ _ _ _ _ X Ha Hr) as [A [B [_ [C D]]]]. auto. }
  unfold cmd_frame in H. destruct ws as [|w [|a r]]; auto. destruct (String.eqb w "name" && negb (cmd_type_eqb ct CT_name)); [|auto].
  assert (c = MkCmd ct (Some a) arg0 None None None false rep) by congruence. subst c. repeat (split; [reflexivity|]).
  constructor; cbn [c_done c_arg0 c_buf c_name c_mask c_repeat c_frame]; auto; try discriminate.
  - intros HT. apply Ha. unfold traffic, is_rx, is_tx in HT. cbn [c_type] in HT. destruct ct; try discriminate; auto.
  - intros _. right. discriminate.
Qed.

Lemma atoi_u32_range : forall s, 0 <= atoi_u32 s < 2 ^ 32.
Proof. intros s. unfold atoi_u32, u32. apply Z.mod_pos_bound. reflexivity. Qed.

Lemma argc_cmd_good : forall ws n c, argc_cmd ws = Ret (COk n c) -> cmd_good c.
Proof.
  intros ws n c H. unfold argc_cmd in H. destruct ws as [|w r]; [discriminate|]. destruct (cmd_word w) as [ct|]; [|destruct (String.eqb w "help"); discriminate].
  destruct r as [|a r2]; [discriminate|]. change (2 ^ 32) with 4294967296 in *.
  destruct ct.
  1-4: apply cmd_frame_good in H; [apply H|intros [X|X]; try discriminate; eauto|change (2 ^ 32) with 4294967296; lia].
  destruct r2 as [|x r3]; [discriminate|]. destruct (String.eqb x "rep" || String.eqb x "repeat").
  - destruct r3 as [|t r4]; [discriminate|]. apply cmd_frame_good in H; [apply H|eauto|apply atoi_u32_range].
  - apply cmd_frame_good in H; [apply H|eauto|change (2 ^ 32) with 4294967296; lia].
Qed.

Lemma parsed_good : forall ws cs, parse_cmds ws = Ret (Some cs) -> Forall cmd_good cs /\ (length cs <= 100)%nat.
Proof.
  intros ws cs H. apply cmds_segments in H. destruct H as [segs [_ [H L]]]. split; [|exact L]. clear L. induction H as [|s c segs cs H1 H2 IH]; constructor; auto.
  eapply argc_cmd_good; eauto.
Qed.

(** C37 *)
Lemma all_or_nothing : forall ws e r ev, argc_cmds ws e = Ret (r, ev) ->
  (r = -1 /\ ev = []) \/
  exists segs cs, concat segs = ws /\ Forall2 command_words segs cs /\ (length cs <= 100)%nat /\ exec_cmds cs e = Ret (r, ev).
Proof.
  intros ws e r ev H. unfold argc_cmds in H. binv H. destruct a as [cs|].
  - right. apply cmds_segments in E. destruct E as [segs [H1 [H2 H3]]]. exists segs, cs. auto.
  - left. split; congruence.
Qed.

(** *** Crashes of the parser (C38) *)

Definition frame_crash (ws : list string) (c : crash) : Prop :=
  c = Out_of_model \/ c = Assert_fail \/ c = Exit_call \/ (c = OOB_read /\ overlong_word ws) \/ (c = Uninit_ptr /\ missing_parameter ws).

Lemma overlong_app : forall A ws, overlong_word ws -> overlong_word (A ++ ws).
Proof.
  intros A ws [t [f [A0 [v [B [H1 [H2 [-> [H4 H5]]]]]]]]]. exists t, f, (A ++ A0), v, B. split; [auto|split; [auto|split; [rewrite <- app_assoc; auto|split; [apply in_or_app; auto|auto]]]].
Qed.

Lemma missing_app : forall A ws, missing_parameter ws -> missing_parameter (A ++ ws).
Proof.
  intros A ws [A0 [B [n [-> [H1 H2]]]]]. exists (A ++ A0), B, n. split; [rewrite <- app_assoc; auto|split; [apply in_or_app; auto|auto]].
Qed.

Lemma frame_crash_app : forall A ws c, frame_crash ws c -> frame_crash (A ++ ws) c.
Proof. unfold frame_crash. intros A ws c [H|[H|[H|[[H1 H2]|[H1 H2]]]]]; auto 8 using overlong_app, missing_app. Qed.

Lemma finish_crash : forall ct name arg0 rep i ws c, finish_cmd ct name arg0 rep i ws = Crash c -> frame_crash ws c.
Proof.
  intros ct name arg0 rep i ws c H. unfold finish_cmd in H. destruct (argc_frame ws) as [o|d] eqn:E; cbn [bind] in H.
  - destruct o as [[m f]|]; [|discriminate]. destruct m as [|m]; [destruct ct; discriminate|].
    destruct (frame_to_buf f) as [[f1 b]|d] eqn:E1; cbn [bind] in H.
    + destruct (fr_has_mask f1); [|discriminate]. destruct (frame_mask_to_buf f1) as [mb|d] eqn:E2; cbn [bind] in H; [discriminate|].
      assert (c = d) by congruence. subst d. destruct (mask_crash _ _ _ _ _ _ E E1 E2) as [->| ->]; unfold frame_crash; auto.
    + assert (c = d) by congruence. subst d. destruct (serialise_crash _ _ _ _ E E1) as [->|[->| ->]]; unfold frame_crash; auto.
  - assert (c = d) by congruence. subst d. destruct (parse_frame_crash _ _ E) as [->|[[-> Ho]|[-> Ho]]]; unfold frame_crash; auto 6.
Qed.

Lemma cmd_frame_crash : forall ct name arg0 rep i ws c, cmd_frame ct name arg0 rep i ws = Crash c -> frame_crash ws c.
Proof.
  intros ct name arg0 rep i ws c H. unfold cmd_frame in H. destruct ws as [|w [|a r]]; try (eapply finish_crash; eauto; fail).
  destruct (_ && _); [discriminate|]. eapply finish_crash; eauto.
Qed.

Lemma cmd_word_tx : forall w, cmd_word w = Some CT_tx -> w = "tx"%string.
Proof.
  intros w H. unfold cmd_word in H. do 5 match type of H with context [String.eqb w ?x] => destruct (String.eqb_spec w x); [first [discriminate H|assumption]|] end. discriminate H.
Qed.

Lemma argc_cmd_crash : forall ws c, argc_cmd ws = Crash c -> frame_crash ws c \/ (c = Null_deref /\ cut_short ws).
Proof.
  intros ws c H. unfold argc_cmd in H. destruct ws as [|w r]; [discriminate|]. destruct (cmd_word w) as [ct|] eqn:Ew; [|destruct (String.eqb w "help"); discriminate].
  destruct r as [|a r2]; [discriminate|].
  destruct ct.
  1,2,4: left; apply (frame_crash_app [w; a]); eapply cmd_frame_crash; eauto.
  - left; apply (frame_crash_app [w]); eapply cmd_frame_crash; eauto.
  - apply cmd_word_tx in Ew. subst w. destruct r2 as [|x r3]; [right; split; [congruence|]; exists [], a; auto|].
    destruct (String.eqb x "rep" || String.eqb x "repeat") eqn:Ex.
    + destruct r3 as [|t r4].
      * right. split; [congruence|]. exists [], a. right. exists x. split; [|auto]. apply orb_prop in Ex. destruct Ex as [Ex|Ex]; apply String.eqb_eq in Ex; auto.
      * left. apply (frame_crash_app ["tx"; a; x; t]%string). eapply cmd_frame_crash; eauto.
    + left; apply (frame_crash_app ["tx"; a]%string); eapply cmd_frame_crash; eauto.
Qed.

Lemma cut_short_app : forall A ws, cut_short ws -> cut_short (A ++ ws).
Proof.
  intros A ws [A0 [i [->|[rep [Hr ->]]]]]; exists (A ++ A0), i; [left|right; exists rep; split; [auto|]]; rewrite <- app_assoc; auto.
Qed.

Lemma cmds_crash : forall slots ws c, argc_cmds_loop slots ws = Crash c -> frame_crash ws c \/ (c = Null_deref /\ cut_short ws).
Proof.
  induction slots as [|slots IH]; intros ws c H; cbn [argc_cmds_loop] in H; (destruct ws as [|w r]; [discriminate|]); [discriminate|].
  destruct (argc_cmd (w :: r)) as [x|d] eqn:E; cbn [bind] in H.
  - destruct x as [| |n c1]; try discriminate. destruct (argc_cmds_loop slots (skipn n (w :: r))) as [o|d] eqn:E1; cbn [bind] in H; [discriminate|].
    assert (c = d) by congruence. subst d. rewrite <- (firstn_skipn n (w :: r)). destruct (IH _ _ E1) as [K|[K1 K2]]; [left; apply frame_crash_app; auto|right; split; [auto|apply cut_short_app; auto]].
  - assert (c = d) by congruence. subst d. apply argc_cmd_crash; auto.
Qed.

Lemma parse_cmds_crash : forall ws c, parse_cmds ws = Crash c -> frame_crash ws c \/ (c = Null_deref /\ cut_short ws).
Proof. intros ws c. apply cmds_crash. Qed.

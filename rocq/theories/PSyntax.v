(** The words of the commands (C58). *)

From Verif Require Import PTextIp PTextNum Frame PBits PSer SpecParse PParse PMatch SpecFrame PFrame PArgs PPrefix Exec SpecExec PCmd.

Lemma frame_not : forall w r n f, find_tmpl w = None -> argc_frame (w :: r) = Ret (Some (n, f)) -> n = 0%nat.
Proof.
  intros w r n f HT H. unfold argc_frame in H. destruct (_ <? _); [discriminate|]. cbn [length argc_frame_loop] in H. destruct (String.eqb w "help"); [discriminate|]. rewrite HT in H. congruence.
Qed.

Lemma cok_inj : forall a b c d, Ret (COk a b) = Ret (COk c d) -> a = c /\ b = d.
Proof. intros a b c d H. split; congruence. Qed.

Lemma finish_words : forall ct nm a0 rep k F c, finish_cmd ct nm a0 rep k F = Ret (COk (k + length F) c) <->
  (exists f b m, a_frame F f b m /\ c = MkCmd ct nm a0 (Some f) (Some b) m false rep) \/
  (F = [] /\ ct = CT_rx /\ c = MkCmd ct nm a0 None None None false rep).
Proof.
  intros ct nm a0 rep k F c. unfold finish_cmd. split.
  - intros H. binv H. destruct a as [[n f0]|]; [|discriminate]. destruct n as [|n].
    + right. destruct ct; try discriminate. destruct (cok_inj _ _ _ _ H) as [H0 H1]. destruct F; [|cbn [length] in H0; lia]. auto.
    + left. binv H. destruct a as [f1 b]. binv H. destruct (cok_inj _ _ _ _ H) as [H0 H1]. exists f1, b, a. split; [|auto].
      split; [intros ->; cbn [length] in *; lia|]. exists f0. replace (length F) with (S n) by lia. split; [auto|split; [auto|]]. destruct (fr_has_mask f1); [binv E1; apply ret_inj in E1; eexists; split; [eassumption|auto]|apply ret_inj in E1; auto].
  - intros [[f [b [m [[HF [f0 [E1 [E2 E3]]]] ->]]]]|[-> [-> ->]]].
    + rewrite E1. cbn [bind]. destruct F as [|w F]; [congruence|]. cbn [length]. rewrite E2. cbn [bind]. destruct (fr_has_mask f); [destruct E3 as [x [-> ->]]; reflexivity|subst m; reflexivity].
    + change (argc_frame []) with (Ret (Some (0%nat, empty_frame))). cbn [bind length]. rewrite Nat.add_0_r. reflexivity.
Qed.

Lemma cmd_words : forall ct a0 rep k F c, ct <> CT_name -> cmd_frame ct None a0 rep k F = Ret (COk (k + length F) c) <->
  (exists n f b m, contents F n f b m /\ c = MkCmd ct n a0 f b m false rep) \/
  (F = [] /\ ct = CT_rx /\ c = MkCmd ct None a0 None None None false rep).
Proof.
  intros ct a0 rep k F c HC. assert (HN : cmd_type_eqb ct CT_name = false) by (destruct ct; auto; congruence).
  assert (G : (exists n f b m, contents F n f b m /\ c = MkCmd ct n a0 f b m false rep) <->
              (exists f b m, a_frame F f b m /\ c = MkCmd ct None a0 (Some f) (Some b) m false rep) \/ (exists n, F = ["name"; n]%string /\ c = MkCmd ct (Some n) a0 None None None false rep)).
  { split.
    - intros [n [f [b [m [H ->]]]]]. destruct H; [left; eauto|right; eauto].
    - intros [[f [b [m [H ->]]]]|[n [-> ->]]]; do 4 eexists; (split; [constructor; eauto|reflexivity]). }
  rewrite G. clear G. assert (FN : forall r f b m, ~ a_frame ("name"%string :: r) f b m).
  { intros r f b m [_ [f0 [H _]]]. apply frame_not in H; [discriminate|vm_compute; reflexivity]. }
  destruct F as [|w [|x F]].
  - cbn [cmd_frame]. rewrite finish_words. split; [intros [H|H]; auto|intros [[H|[n0 [H _]]]|H]; auto; discriminate].
  - cbn [cmd_frame]. rewrite finish_words. split; [intros [H|H]; auto|intros [[H|[n0 [H _]]]|H]; auto; discriminate].
  - cbn [cmd_frame]. rewrite HN. cbn [negb]. rewrite andb_true_r. destruct (String.eqb_spec w "name").
    + subst w. split.
      * intros H. left. right. exists x. destruct (cok_inj _ _ _ _ H) as [H0 H1]. destruct F; [|cbn [length] in H0; lia]. auto.
      * intros [[[f [b [m [H _]]]]|[n [E ->]]]|[H _]]; [destruct (FN _ _ _ _ H)| |discriminate]. assert (x = n) by congruence. assert (F = []) by congruence. subst. reflexivity.
    + rewrite finish_words. split; [intros [H|H]; auto|intros [[H|[n0 [H _]]]|H]; auto; congruence].
Qed.

Lemma not_reps : forall F n f b m, contents F n f b m -> forall x r, F = x :: r -> (String.eqb x "rep" || String.eqb x "repeat")%bool = false.
Proof.
  intros F n f b m H x r ->. destruct (String.eqb_spec x "rep"); [|destruct (String.eqb_spec x "repeat"); [|auto]]; subst; exfalso; inversion H; subst;
    match goal with H : a_frame _ _ _ _ |- _ => destruct H as [_ [f1 [X _]]]; apply frame_not in X; [discriminate|vm_compute; reflexivity] end.
Qed.

Lemma command_syntax : forall seg c, command_words seg c <-> command_text seg c.
Proof.
  intros seg c. unfold command_words. split.
  - intros H. unfold argc_cmd in H. destruct seg as [|w r]; [discriminate|]. destruct (cmd_word w) as [ct|] eqn:EW; [|destruct (String.eqb w "help"); discriminate].
    assert (W : w = match ct with CT_name => "name" | CT_pcap => "pcap" | CT_hex => "hex" | CT_rx => "rx" | CT_tx => "tx" end%string).
    { unfold cmd_word in EW. do 5 match type of EW with context [String.eqb w ?x] => destruct (String.eqb_spec w x); [assert (EQ := some_inj _ _ _ EW); subst; auto|] end. discriminate. }
    destruct r as [|a r2]; [discriminate|]. destruct ct; subst w.
    + cbn [cmd_frame] in H. assert (H1 : finish_cmd CT_name (Some a) None 0 2 r2 = Ret (COk (2 + length r2) c)) by (destruct r2 as [|x [|y r3]]; cbn [cmd_frame cmd_type_eqb negb] in H; try rewrite andb_false_r in H; exact H).
      apply finish_words in H1. destruct H1 as [[f [b [m [H1 ->]]]]|[_ [X _]]]; [constructor; auto|discriminate].
    + change (cmd_frame CT_pcap None (Some a) 0 2 r2 = Ret (COk (2 + length r2) c)) in H. apply cmd_words in H; [|discriminate]. destruct H as [[n [f [b [m [H ->]]]]]|[_ [X _]]]; [constructor; auto|discriminate].
    + change (cmd_frame CT_hex None None 0 1 (a :: r2) = Ret (COk (1 + length (a :: r2)) c)) in H. apply cmd_words in H; [|discriminate]. destruct H as [[n [f [b [m [H ->]]]]]|[_ [X _]]]; [constructor; auto|discriminate].
    + change (cmd_frame CT_rx None (Some a) 0 2 r2 = Ret (COk (2 + length r2) c)) in H. apply cmd_words in H; [|discriminate]. destruct H as [[n [f [b [m [H ->]]]]]|[-> [_ ->]]]; [apply text_rx; auto|apply text_rx_nothing].
    + destruct r2 as [|x r3]; [discriminate|]. destruct (String.eqb x "rep" || String.eqb x "repeat")%bool eqn:EX.
      * destruct r3 as [|k r4]; [discriminate|]. change (cmd_frame CT_tx None (Some a) (atoi_u32 k) 4 r4 = Ret (COk (4 + length r4) c)) in H. apply cmd_words in H; [|discriminate]. destruct H as [[n [f [b [m [H ->]]]]]|[_ [X _]]]; [|discriminate].
        apply text_tx_rep; [|auto]. apply orb_prop in EX. destruct EX as [EX|EX]; apply String.eqb_eq in EX; subst; cbn; auto.
      * change (cmd_frame CT_tx None (Some a) 1 2 (x :: r3) = Ret (COk (2 + length (x :: r3)) c)) in H. apply cmd_words in H; [|discriminate]. destruct H as [[n [f [b [m [H ->]]]]]|[_ [X _]]]; [|discriminate]. constructor; auto.
  - intros H. destruct H.
    + change (argc_cmd ("name" :: n :: F)%string) with (cmd_frame CT_name (Some n) None 0 2 F). replace (cmd_frame CT_name (Some n) None 0 2 F) with (finish_cmd CT_name (Some n) None 0 2 F) by (destruct F as [|x [|y r3]]; cbn [cmd_frame cmd_type_eqb negb]; try rewrite andb_false_r; reflexivity).
      change (length ("name" :: n :: F)%string) with (2 + length F)%nat. apply finish_words. left. eauto.
    + assert (HN : F <> []) by (destruct H; [apply H|discriminate]). destruct F as [|x F]; [congruence|]. change (argc_cmd ("hex" :: x :: F)%string) with (cmd_frame CT_hex None None 0 1 (x :: F)). change (length ("hex" :: x :: F)%string) with (1 + length (x :: F))%nat. apply cmd_words; [discriminate|]. left. eauto 8.
    + change (argc_cmd ("pcap" :: file :: F)%string) with (cmd_frame CT_pcap None (Some file) 0 2 F). change (length ("pcap" :: file :: F)%string) with (2 + length F)%nat. apply cmd_words; [discriminate|]. left. eauto 8.
    + change (argc_cmd ("rx" :: ifn :: F)%string) with (cmd_frame CT_rx None (Some ifn) 0 2 F). change (length ("rx" :: ifn :: F)%string) with (2 + length F)%nat. apply cmd_words; [discriminate|]. left. eauto 8.
    + reflexivity.
    + assert (HN : F <> []) by (destruct H; [apply H|discriminate]). destruct F as [|x F]; [congruence|]. pose proof (not_reps _ _ _ _ _ H _ _ eq_refl) as NR.
      change (argc_cmd ("tx" :: ifn :: x :: F)%string) with (if (String.eqb x "rep" || String.eqb x "repeat")%bool then match F with [] => Crash Null_deref | k :: r4 => cmd_frame CT_tx None (Some ifn) (atoi_u32 k) 4 r4 end else cmd_frame CT_tx None (Some ifn) 1 2 (x :: F)).
      rewrite NR. change (length ("tx" :: ifn :: x :: F)%string) with (2 + length (x :: F))%nat. apply cmd_words; [discriminate|]. left. eauto 8.
    + assert (NR : (String.eqb rep "rep" || String.eqb rep "repeat")%bool = true) by (destruct H as [<-|[<-|[]]]; reflexivity).
      change (argc_cmd ("tx" :: ifn :: rep :: k :: F)%string) with (if (String.eqb rep "rep" || String.eqb rep "repeat")%bool then cmd_frame CT_tx None (Some ifn) (atoi_u32 k) 4 F else cmd_frame CT_tx None (Some ifn) 1 2 (rep :: k :: F)).
      rewrite NR. change (length ("tx" :: ifn :: rep :: k :: F)%string) with (4 + length F)%nat. apply cmd_words; [discriminate|]. left. eauto 8.
Qed.

Lemma dec_prefix_digits : forall s ds acc, digits_of 10 s ds -> dec_prefix acc s = acc * 10 ^ Z.of_nat (length ds) + positional 10 ds.
Proof.
  induction s as [|c s IH]; intros ds acc H; unfold digits_of in H; cbn [chars] in H; inversion H; subst; [cbn; lia|].
  cbn [dec_prefix]. destruct H2 as [Hd Hl]. assert (HC : in_range 48 57 c = true /\ code c - 48 = y).
  { destruct c as [[] [] [] [] [] [] [] []]; vm_compute in Hd; inversion Hd; subst; try lia; split; vm_compute; reflexivity. }
  destruct HC as [-> HC]. rewrite HC. rewrite (IH l' _ H4). cbn [length positional]. rewrite Nat2Z.inj_succ, Z.pow_succ_r by lia. ring.
Qed.

Lemma repeat_number : forall k n, denotes 10 k n -> n < 2 ^ 32 -> atoi_u32 k = n.
Proof.
  intros k n [ds [Hd ->]] Hn. assert (H0 : 0 <= positional 10 ds).
  { clear Hn. unfold digits_of in Hd. remember (chars k) as l. clear Heql. induction Hd as [|c d l ds [H1 H2] _ IH]; cbn [positional]; [lia|].
    assert (0 <= d). { destruct c as [[] [] [] [] [] [] [] []]; vm_compute in H1; inversion H1; subst; lia. } pose proof (Z.pow_nonneg 10 (Z.of_nat (length ds)) ltac:(lia)). nia. }
  unfold atoi_u32, strtol10, u32. destruct k as [|c k].
  - cbn in Hd. inversion Hd; subst. reflexivity.
  - pose proof (dec_prefix_digits (String c k) ds 0 Hd) as P. rewrite Z.mul_0_l, Z.add_0_l in P. unfold digits_of in Hd. cbn [chars] in Hd. inversion Hd as [|? ? ? ? [H1 H2]]; subst.
    assert (HC : is_space c = false /\ (code c =? 45) = false /\ (code c =? 43) = false).
    { destruct c as [[] [] [] [] [] [] [] []]; vm_compute in H1; inversion H1; subst; try lia; split; [|split| |split| |split| |split| |split| |split| |split| |split| |split| |split]; vm_compute; reflexivity. }
    destruct HC as [E1 [E2 E3]]. cbn [skip_space]. rewrite E1, E2, E3, P. rewrite Z.min_r by (unfold LONG_MAX; change (2 ^ 32) with 4294967296 in Hn; lia). apply Z.mod_small. lia.
Qed.

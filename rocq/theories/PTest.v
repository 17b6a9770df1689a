(** Tests written in words: the commands of the line (C84). *)

From Coq Require Import Permutation.
From Verif Require Import PTextIp PTextNum PTextHex PTextMac PTextAddr Frame PSer SpecParse PParse PMatch SpecFrame PFrame PInv PStep PArgs PPrefix PSafe SpecFill PFill SpecLayout Cmd Exec SpecExec PCmd PPair PExec SpecWhole SpecExact SpecForm PForm PForm2 PForm3 PForm4 PForm5 PForm6 PForm7 PMask PIgnore PSyntax SpecWish PWish PWish2 PWish3 PWish4 SpecTest.

(** *** Frames *)
Definition holds (ws : list wish) (c : cmd) : Prop :=
  exists f b m, a_frame (asked ws) f b m /\ c_frame c = Some f /\ c_buf c = Some b /\ c_mask c = m.

Lemma a_frame_one : forall F f b m f' b' m', a_frame F f b m -> a_frame F f' b' m' -> f = f' /\ b = b' /\ m = m'.
Proof.
  intros F f b m f' b' m' [_ [f0 [A1 [A2 A3]]]] [_ [f1 [B1 [B2 B3]]]]. assert (f1 = f0) by congruence. subst f1. assert (f = f') by congruence. assert (b = b') by congruence. subst. split; [auto|split; [auto|]].
  destruct (fr_has_mask f'); [destruct A3 as [x [X1 X2]], B3 as [y [Y1 Y2]]; congruence|congruence].
Qed.

Lemma strict_words : forall ws, strict ws -> Forall (fun x => ~ ignore_word x) (asked ws).
Proof. intros ws H. eapply Forall_impl; [|exact H]. intros x Hx [ -> | -> ]; discriminate Hx. Qed.

Lemma sayable_frame : forall ws, sayable ws -> exists f0 f b m, a_frame (asked ws) f b m /\ spelled (map plain ws) b /\ fr_padding f = 0 /\ serialised (asked ws) f0 f b /\ fr_padding f0 = 0.
Proof.
  intros ws [[Hn [HW [HA [HP [HL HT]]]]] HK]. destruct (asked_serialised ws HW HA HP HL HT) as [hs [mk [f' [b [H1 [H2 H3]]]]]]. pose proof H3 as [_ [_ HB]]. pose proof (frame_to_buf_inv _ _ _ HB) as [_ [P1 [P2 _]]]. cbn [fr_padding fr_has_mask] in P1, P2.
  assert (HF : exists mo, a_frame (asked ws) f' b mo).
  { destruct HK as [HK|HK].
    - destruct (wish_room _ _ _ _ _ HW HT H1 H3 (proj2 HK)) as [m Hm]. destruct (fr_has_mask f') eqn:EM; [exists (Some m)|exists None]; (split; [apply asked_nil; auto|]); eexists; (split; [exact H2|]); (split; [exact HB|]); rewrite EM; eauto.
    - pose proof (unignored _ _ _ H2 (strict_words _ HK)) as HM. cbn [fr_has_mask] in HM. exists None. split; [apply asked_nil; auto|]. eexists. split; [exact H2|]. split; [exact HB|]. rewrite P2, HM. reflexivity. }
  destruct HF as [mo HF]. exists (MkFrame hs 0 mk), f', b, mo. split; [exact HF|]. split; [eapply asked_spelled; eauto|]. split; [exact P1|]. split; [exact H3|reflexivity].
Qed.

Lemma holds_spelled : forall ws c, sayable ws -> holds ws c -> exists b, c_buf c = Some b /\ spelled (map plain ws) b /\ Forall is_byte b.
Proof.
  intros ws c HS [f [b [m [H1 [H2 [H3 H4]]]]]]. destruct (sayable_frame _ HS) as [f0 [f' [b' [m' [K1 [K2 _]]]]]]. destruct (a_frame_one _ _ _ _ _ _ _ H1 K1) as [-> [-> ->]]. exists b'. split; [exact H3|]. split; [exact K2|apply (sp_bytes _ _ K2)].
Qed.

Lemma holds_padding : forall ws c f, sayable ws -> holds ws c -> c_frame c = Some f -> fr_padding f = 0.
Proof.
  intros ws c f HS [f1 [b [m [H1 [H2 [H3 H4]]]]]] Hf. destruct (sayable_frame _ HS) as [f0 [f' [b' [m' [K1 [_ [K2 _]]]]]]]. destruct (a_frame_one _ _ _ _ _ _ _ H1 K1) as [-> [-> ->]]. congruence.
Qed.

Lemma strict_regards : forall ws i, Forall well_wished ws -> strict ws -> ~ disregarded ws i.
Proof.
  intros ws i HW HS [k [n [asg [m [all [fld [off [w [H1 [H2 [H3 _]]]]]]]]]]]. unfold strict, asked in HS. rewrite Forall_forall in HS.
  assert (K : forall x, In x (wish_words (Header n asg, m, all)) -> asks_ignore x = false) by (intros x Hx; apply HS, in_flat_map; exists (Header n asg, m, all); split; [eapply nth_error_In; exact H1|exact Hx]).
  unfold left_out in H3. destruct (last_given asg fld) as [s|] eqn:EL.
  - assert (Hin : In s (words_of asg)).
    { clear -EL. induction asg as [|[g v] asg IH]; [discriminate EL|]. cbn [last_given] in EL. cbn [words_of flat_map app fst snd]. fold (words_of asg). destruct (last_given asg fld) as [s'|] eqn:E2; [right; right; apply IH; exact EL|]. destruct (String.eqb g fld); [|discriminate EL]. right; left. congruence. }
    rewrite (K s) in H3; [discriminate|]. cbn [wish_words]. destruct all; cbn [part_words]; right; [right|]; exact Hin.
  - destruct all as [a|]; [|discriminate]. rewrite Forall_forall in HW. destruct (HW _ (nth_error_In _ _ H1)) as [_ [HA _]]. specialize (HA a eq_refl). rewrite (K a) in HA; [discriminate|right; left; reflexivity].
Qed.

Lemma meets_strict : forall ws rx b, sayable ws -> strict ws -> spelled (map plain ws) b -> Forall is_byte rx -> (meets ws rx <-> rx = b).
Proof.
  intros ws rx b [[_ [HW _]] _] HS Hb Hr. split.
  - intros [b' [H1 [H2 H3]]]. rewrite (spelled_one (map plain ws) b b' (well_plain _ HW) Hb H1). pose proof (sp_bytes _ _ H1) as HB.
    apply buf_ext; auto. intros i Hi. unfold zlen in Hi. apply H3; [lia|]. apply strict_regards; auto.
  - intros ->. exists b. auto.
Qed.

Lemma holds_meets : forall ws c rx, sayable ws -> holds ws c -> Forall is_byte rx -> (accepts c rx <-> meets ws rx).
Proof.
  intros ws c rx HS [f [b [m [H1 [H2 [H3 H4]]]]]] Hr. destruct (sayable_frame _ HS) as [f0 [f' [b' [m' [K1 [K2 [K3 [K4 K5]]]]]]]]. destruct (a_frame_one _ _ _ _ _ _ _ H1 K1) as [-> [-> ->]].
  set (d := MkCmd CT_rx None (Some ""%string) (Some f') (Some b') m' false 0).
  assert (HC : command_words ("rx" :: "" :: asked ws)%string d) by (apply command_syntax, text_rx, by_frame, K1).
  assert (E : accepts c rx <-> accepts d rx) by (unfold accepts; rewrite H2, H3, H4; reflexivity). rewrite E. clear E.
  pose proof HS as [HQ [HM|HM]].
  - rewrite (wishes_accept "rx" "" ws d b' rx ltac:(left; reflexivity) HQ (proj1 HM) HC K2 Hr). split.
    + intros [X1 X2]. exists b'. auto.
    + intros [b2 [X1 [X2 X3]]]. destruct HQ as [_ [HW _]]. rewrite (spelled_one (map plain ws) b' b2 (well_plain _ HW) K2 X1). auto.
  - rewrite (meets_strict ws rx b' HS HM K2 Hr). apply (expectation_exact "rx" "" (asked ws) d f0 f' b' rx); auto; [left; reflexivity|apply strict_words; exact HM].
Qed.

(** *** The commands *)
Definition held (s : source) (n : option string) (f : option frame) (b m : option (list Z)) : Prop :=
  match s with
  | Words ws => n = None /\ exists f0 b0, f = Some f0 /\ b = Some b0 /\ a_frame (asked ws) f0 b0 m
  | Named k => n = Some k /\ f = None /\ b = None /\ m = None
  end.

Inductive written : step -> cmd -> Prop :=
| wr_send : forall ifn rep s n f b m, held s n f b m -> written (Send ifn rep s) (MkCmd CT_tx n (Some ifn) f b m false (copies rep))
| wr_expect : forall ifn s n f b m, held s n f b m -> written (Expect ifn s) (MkCmd CT_rx n (Some ifn) f b m false 0)
| wr_nothing : forall ifn, written (Nothing ifn) (MkCmd CT_rx None (Some ifn) None None None false 0)
| wr_define : forall n ws f b m, a_frame (asked ws) f b m -> written (Define n ws) (MkCmd CT_name (Some n) None (Some f) (Some b) m false 0).

Lemma finish_before : forall ct nm a0 rep k ws rest f b m, well_asked ws -> next_command rest -> (length (asked ws) + length rest <= 100)%nat -> a_frame (asked ws) f b m ->
  finish_cmd ct nm a0 rep k (asked ws ++ rest) = Ret (COk (k + length (asked ws)) (MkCmd ct nm a0 (Some f) (Some b) m false rep)).
Proof.
  intros ct nm a0 rep k ws rest f b m HW HN HL [H0 [f0 [H1 [H2 H3]]]]. unfold finish_cmd. rewrite (asked_before _ _ _ HW HN HL H1). cbn [bind]. destruct (asked ws) as [|w F] eqn:EF; [congruence|]. cbn [length]. rewrite H2. cbn [bind].
  destruct (fr_has_mask f); [destruct H3 as [x [-> ->]]; reflexivity|subst m; reflexivity].
Qed.

Definition source_ok (s : source) : Prop := match s with Words ws => sayable ws | Named _ => True end.

Lemma cmd_frame_before : forall ct a0 rep k s rest, ct <> CT_name -> source_ok s -> next_command rest -> (length (source_words s) + length rest <= 100)%nat ->
  exists n f b m, held s n f b m /\ cmd_frame ct None a0 rep k (source_words s ++ rest) = Ret (COk (k + length (source_words s)) (MkCmd ct n a0 f b m false rep)).
Proof.
  intros ct a0 rep k [ws|n] rest HC HS HN HL; cbn [source_words source_ok] in *.
  - destruct (sayable_frame _ HS) as [_ [f [b [m [HF _]]]]]. exists None, (Some f), (Some b), m. split; [split; [reflexivity|eauto]|]. rewrite <- (finish_before ct None a0 rep k ws rest f b m (proj1 HS) HN HL HF).
    pose proof HS as [[Hn [HW _]] _]. pose proof (asked_not_name ws) as HX. pose proof (asked_nil _ Hn) as H0. destruct (asked ws) as [|w F]; [congruence|]. specialize (HX w F HW eq_refl). cbn [app].
    unfold cmd_frame. apply String.eqb_neq in HX. rewrite HX. cbn [andb]. destruct (F ++ rest); reflexivity.
  - exists (Some n), None, None, None. split; [repeat split|]. cbn [app length cmd_frame]. assert (E : cmd_type_eqb ct CT_name = false) by (destruct ct; auto; congruence). rewrite E. reflexivity.
Qed.

Definition step_ok (x : step) : Prop :=
  match x with
  | Send _ rep s => source_ok s /\ forall w k n, rep = Some (w, k, n) -> In w ["rep"; "repeat"]%string /\ denotes 10 k n /\ 0 < n < 2 ^ 32
  | Expect _ s => source_ok s
  | Nothing _ => True
  | Define _ ws => sayable ws
  end.

Lemma not_rep : forall s w r, source_ok s -> source_words s = w :: r -> (String.eqb w "rep" || String.eqb w "repeat")%bool = false.
Proof.
  intros [ws|n] w r HS E; cbn [source_ok source_words] in *; [|injection E as <- _; reflexivity]. destruct (sayable_frame _ HS) as [_ [f [b [m [HF _]]]]]. rewrite E in HF. eapply not_reps; [apply by_frame; exact HF|reflexivity].
Qed.

Lemma step_before : forall x rest, step_ok x -> next_command rest -> (forall ifn, x = Nothing ifn -> hd_error rest <> Some "name"%string) -> (length (step_words x) + length rest <= 100)%nat ->
  exists c, written x c /\ argc_cmd (step_words x ++ rest) = Ret (COk (length (step_words x)) c).
Proof.
  intros x rest HX HN HR HL. destruct x as [ifn rep s|ifn s|ifn|n ws]; cbn [step_ok] in HX.
  - destruct HX as [HS HC]. destruct rep as [[[w k] n]|]; cbn [step_words length] in *.
    + destruct (HC w k n eq_refl) as [C1 [C2 C3]]. destruct (cmd_frame_before CT_tx (Some ifn) (atoi_u32 k) 4 s rest ltac:(discriminate) HS HN ltac:(lia)) as [n0 [f [b [m [H1 H2]]]]].
      eexists. split; [apply (wr_send ifn (Some (w, k, n)) s _ _ _ _ H1)|]. cbn [copies]. rewrite <- (repeat_number k n C2) by lia.
      assert (NR : (String.eqb w "rep" || String.eqb w "repeat")%bool = true) by (destruct C1 as [<-|[<-|[]]]; reflexivity). cbn [app].
      change (argc_cmd ("tx" :: ifn :: w :: k :: source_words s ++ rest)%string) with (if (String.eqb w "rep" || String.eqb w "repeat")%bool then cmd_frame CT_tx None (Some ifn) (atoi_u32 k) 4 (source_words s ++ rest) else cmd_frame CT_tx None (Some ifn) 1 2 (w :: k :: source_words s ++ rest)).
      rewrite NR, H2. reflexivity.
    + destruct (cmd_frame_before CT_tx (Some ifn) 1 2 s rest ltac:(discriminate) HS HN ltac:(lia)) as [n0 [f [b [m [H1 H2]]]]].
      eexists. split; [apply (wr_send ifn None s _ _ _ _ H1)|]. cbn [copies app]. pose proof (not_rep s) as NR. destruct (source_words s) as [|x F] eqn:EF.
      * exfalso. destruct s as [ws|n]; [|discriminate]. destruct HS as [[Hn _] _]. exact (asked_nil _ Hn EF).
      * cbn [app] in *. specialize (NR x F HS eq_refl).
        change (argc_cmd ("tx" :: ifn :: x :: F ++ rest)%string) with (if (String.eqb x "rep" || String.eqb x "repeat")%bool then match F ++ rest with [] => Crash Null_deref | k :: r4 => cmd_frame CT_tx None (Some ifn) (atoi_u32 k) 4 r4 end else cmd_frame CT_tx None (Some ifn) 1 2 (x :: F ++ rest)).
        rewrite NR, H2. reflexivity.
  - cbn [step_words length] in *. destruct (cmd_frame_before CT_rx (Some ifn) 0 2 s rest ltac:(discriminate) HX HN ltac:(lia)) as [n0 [f [b [m [H1 H2]]]]].
    eexists. split; [apply (wr_expect ifn s _ _ _ _ H1)|]. cbn [app]. change (argc_cmd ("rx" :: ifn :: source_words s ++ rest)%string) with (cmd_frame CT_rx None (Some ifn) 0 2 (source_words s ++ rest)). rewrite H2. reflexivity.
  - eexists. split; [apply wr_nothing|]. specialize (HR ifn eq_refl). cbn [step_words app length] in *. change (argc_cmd ("rx" :: ifn :: rest)%string) with (cmd_frame CT_rx None (Some ifn) 0 2 rest).
    assert (E : cmd_frame CT_rx None (Some ifn) 0 2 rest = finish_cmd CT_rx None (Some ifn) 0 2 rest).
    { destruct rest as [|w [|a r]]; [reflexivity..|]. cbn [cmd_frame]. destruct (String.eqb_spec w "name"); [subst w; destruct HR; reflexivity|reflexivity]. }
    rewrite E. unfold finish_cmd. assert (EA : exists f, argc_frame rest = Ret (Some (0%nat, f))).
    { unfold argc_frame, FRAME_STACK_MAX, zlen. destruct (Z.ltb_spec 100 (Z.of_nat (length rest))); [lia|]. destruct HN as [-> |[w [r [-> Hw]]]]; [eexists; reflexivity|]. cbn [length argc_frame_loop].
      assert (E2 : String.eqb w "help" = false /\ find_tmpl w = None) by (destruct Hw as [<-|[<-|[<-|[]]]]; split; vm_compute; reflexivity). destruct E2 as [-> ->]. eexists; reflexivity. }
    destruct EA as [f ->]. reflexivity.
  - cbn [step_words length] in *. destruct (sayable_frame _ HX) as [_ [f [b [m [HF _]]]]]. eexists. split; [apply wr_define; exact HF|]. cbn [app].
    change (argc_cmd ("name" :: n :: asked ws ++ rest)%string) with (cmd_frame CT_name (Some n) None 0 2 (asked ws ++ rest)).
    replace (cmd_frame CT_name (Some n) None 0 2 (asked ws ++ rest)) with (finish_cmd CT_name (Some n) None 0 2 (asked ws ++ rest)) by (destruct (asked ws ++ rest) as [|x [|y r3]]; cbn [cmd_frame cmd_type_eqb negb]; try rewrite andb_false_r; reflexivity).
    rewrite (finish_before CT_name (Some n) None 0 2 ws rest f b m (proj1 HX) HN ltac:(lia) HF). reflexivity.
Qed.

Lemma line_next : forall T, next_command (line T).
Proof.
  intros [|x T]; [left; reflexivity|right]. cbn [line flat_map]. destruct x as [ifn [[[w k] n]|] s|ifn s|ifn|n ws]; cbn [step_words app]; do 2 eexists; (split; [reflexivity|]); cbn; auto.
Qed.

Lemma line_name : forall T, hd_error (line T) = Some "name"%string -> exists n ws T', T = Define n ws :: T'.
Proof. intros [|x T] H; [discriminate H|]. destruct x as [ifn [[[w k] n]|] s|ifn s|ifn|n ws]; try discriminate H. eauto. Qed.

Lemma step_length : forall x, (2 <= length (step_words x))%nat.
Proof. intros [ifn [[[w k] n]|] s|ifn s|ifn|n ws]; cbn [step_words length]; lia. Qed.

Lemma line_length : forall T, (length T <= length (line T))%nat.
Proof. induction T as [|x T IH]; [cbn; lia|]. cbn [line flat_map length]. fold (line T). rewrite app_length. pose proof (step_length x). lia. Qed.

Lemma line_commands : forall T slots, Forall step_ok T -> (forall A ifn n ws B, T <> A ++ Nothing ifn :: Define n ws :: B) -> (length (line T) <= 100)%nat -> (length T <= slots)%nat ->
  exists cs, argc_cmds_loop slots (line T) = Ret (Some cs) /\ Forall2 written T cs.
Proof.
  induction T as [|x T IH]; intros slots HX HA HL HS.
  - exists []. split; [destruct slots; reflexivity|constructor].
  - cbn [line flat_map] in *. fold (line T) in *. rewrite app_length in HL. destruct slots as [|slots]; [cbn in HS; lia|].
    destruct (step_before x (line T) (Forall_inv HX) (line_next T)) as [c [H1 H2]]; [|lia|].
    { intros ifn -> E. destruct (line_name _ E) as [n [ws [T' ->]]]. exact (HA [] ifn n ws T' eq_refl). }
    destruct (IH slots (Forall_inv_tail HX)) as [cs [H3 H4]]; [|lia|cbn in HS; lia|].
    { intros A ifn n ws B E. apply (HA (x :: A) ifn n ws B). cbn [app]. congruence. }
    exists (c :: cs). split; [|constructor; auto]. pose proof (step_length x) as SL. destruct (step_words x ++ line T) as [|w r] eqn:EW; [apply app_eq_nil in EW; destruct EW as [EW _]; rewrite EW in SL; cbn in SL; lia|].
    cbn [argc_cmds_loop]. rewrite H2. cbn [bind]. rewrite <- EW, skipn_app, skipn_all, Nat.sub_diag. cbn [skipn app]. rewrite H3. reflexivity.
Qed.

Lemma proper_steps : forall T, proper T -> Forall step_ok T.
Proof.
  intros T HT. apply Forall_forall. intros x Hx. pose proof (pr_frames _ HT x) as HF. destruct x as [ifn rep s|ifn s|ifn|n ws]; cbn [step_ok].
  - split; [destruct s as [ws|n]; [apply HF; [exact Hx|left; reflexivity]|exact I]|]. intros w k n ->. eapply pr_copies; eauto.
  - destruct s as [ws|n]; [apply HF; [exact Hx|left; reflexivity]|exact I].
  - exact I.
  - apply HF; [exact Hx|left; reflexivity].
Qed.

Lemma proper_parsed : forall T, proper T -> exists cs, parse_cmds (line T) = Ret (Some cs) /\ Forall2 written T cs.
Proof.
  intros T HT. pose proof (pr_size _ HT). pose proof (line_length T). apply line_commands; [apply proper_steps; exact HT|apply pr_apart; exact HT|lia|unfold CMD_MAX; lia].
Qed.

(** What an expectation with ignored fields accepts (C18, C66). *)

From Verif Require Import PTextIp PTextNum Frame PSer PParse PMatch PFrame PInv PStep PArgs PSoft PFill PGroup PAll PSafe PAssign PEmit SpecFill PKeep SpecLayout PMask Exec SpecExec PCmd PPair PExec PSyntax.

Lemma accepts_bits : forall c f b rx, c_frame c = Some f -> c_buf c = Some b -> fr_padding f = 0 -> Forall is_byte rx -> Forall is_byte b ->
  (forall m, c_mask c = Some m -> Forall is_byte m) ->
  (accepts c rx <-> length rx = length b /\ forall i, 0 <= i < 8 * Z.of_nat (length b) -> compared (c_mask c) i -> bit_at rx i = bit_at b i).
Proof.
  intros c f b rx Hf Hb Hp Hr Hbb Hm. destruct (bequal_spec rx b (c_mask c) Hr Hbb Hm) as [r [E Hs]].
  rewrite <- Hs. symmetry. apply verdict_accepts. unfold verdict. rewrite Hb, Hf, Hp. exact E.
Qed.

(** The frame of the words [F] in a command. *)
Lemma framed_command : forall w a F c f f0 b, In w ["rx"; "name"]%string -> command_words (w :: a :: F) c -> c_frame c = Some f -> serialised F f0 f b ->
  a_frame F f b (c_mask c) /\ c_buf c = Some b /\ c_arg0 c = (if String.eqb w "rx" then Some a else None).
Proof.
  intros w a F c f f0 b Hw HC Hf HS. apply command_syntax in HC. destruct HS as [[n HA] [_ HB]].
  assert (G : forall f1 b1 m, a_frame F f1 b1 m -> f1 = f -> a_frame F f b m /\ b1 = b).
  { intros f1 b1 m HAF ->. pose proof HAF as [_ [f2 [X1 [X2 _]]]]. assert (f2 = f0) by congruence. subst f2. assert (b1 = b) by congruence. subst. auto. }
  destruct Hw as [<-|[<-|[]]].
  - inversion HC; subst; cbn [c_frame c_buf c_mask] in *; [|discriminate].
    match goal with H : contents _ _ _ _ _ |- _ => inversion H; subst; [|discriminate] end.
    match goal with H : a_frame F _ _ _ |- _ => destruct (G _ _ _ H ltac:(congruence)) as [G1 G2] end. subst. auto.
  - inversion HC; subst; cbn [c_frame c_buf c_mask] in *.
    match goal with H : a_frame F _ _ _ |- _ => destruct (G _ _ _ H ltac:(congruence)) as [G1 G2] end. subst. auto.
Qed.

Lemma expectation_exact : forall w a F c f0 f b rx, In w ["rx"; "name"]%string -> command_words (w :: a :: F) c -> c_frame c = Some f -> serialised F f0 f b ->
  fr_padding f0 = 0 -> Forall is_byte rx -> Forall (fun x => ~ ignore_word x) F -> (accepts c rx <-> rx = b).
Proof.
  intros w a F c f0 f b rx Hw HC Hf HS Hp Hr HI. destruct (framed_command _ _ _ _ _ _ _ Hw HC Hf HS) as [[_ [f1 [A1 [A2 A3]]]] [Hb _]].
  pose proof HS as [[n HA] [_ HB]]. assert (f1 = f0) by congruence. subst f1.
  pose proof (unignored _ _ _ HA HI) as HM. pose proof (frame_to_buf_inv _ _ _ HB) as [_ [P1 [P2 _]]]. rewrite P2, HM in A3.
  unfold accepts. rewrite Hf, Hb, A3. split.
  - intros [_ [x [E [_ ->]]]]. congruence.
  - intros ->. split; [exists f; split; [auto|congruence]|]. exists b. auto.
Qed.

Lemma expectation_ignoring : forall w a F c f0 f b rx, In w ["rx"; "name"]%string -> command_words (w :: a :: F) c -> c_frame c = Some f -> serialised F f0 f b ->
  fr_padding f0 = 0 -> forallb sv_whole (fr_stack f0) = true -> Forall is_byte rx -> ignores f0 ->
  (accepts c rx <-> length rx = length b /\ forall i, 0 <= i < 8 * Z.of_nat (length b) -> counts f i -> bit_at rx i = bit_at b i).
Proof.
  intros w a F c f0 f b rx Hw HC Hf HS Hp Hsv Hr [h [fl [I1 [I2 I3]]]]. destruct (framed_command _ _ _ _ _ _ _ Hw HC Hf HS) as [[_ [f1 [A1 [A2 A3]]]] [Hb _]].
  pose proof HS as [[n HA] [_ HB]]. assert (f1 = f0) by congruence. subst f1.
  pose proof (ignored_marks _ _ _ _ _ HA I1 I2 I3) as HM. pose proof (frame_to_buf_inv _ _ _ HB) as [_ [P1 [P2 _]]]. rewrite P2, HM in A3. destruct A3 as [m [M1 M2]].
  pose proof (serialised_mask _ _ _ _ HS Hsv) as HW. destruct (mask_bits _ _ M1 HW) as [_ [M3 _]].
  pose proof (mask_length _ _ _ _ HB M1) as ML.
  rewrite (accepts_bits c f b rx Hf Hb ltac:(congruence) Hr (proj1 (frame_range _ _ _ HB))) by (intros x Hx; assert (x = m) by congruence; subst; auto).
  rewrite M2. unfold compared. split; intros [H1 H2]; (split; [auto|]); intros i Hi Hc; apply H2; auto.
  - right. apply (counts_mask _ _ M1 HW); [rewrite ML; lia|auto].
  - destruct Hc as [Hc|Hc]; [lia|]. apply (counts_mask _ _ M1 HW) in Hc; auto. rewrite ML. lia.
Qed.

(** C18 for commands *)
Lemma ignored_command : forall w a F c f0 f b k h h' j fl fl' rx, In w ["rx"; "name"]%string -> command_words (w :: a :: F) c -> c_frame c = Some f -> serialised F f0 f b ->
  fr_padding f0 = 0 -> forallb sv_whole (fr_stack f0) = true ->
  header_pair f0 f k h h' -> nth_error (h_fields h) j = Some fl -> f_skip fl = true -> nth_error (h_fields h') j = Some fl' ->
  (forall g, In g (h_fields h') -> f_skip g = false -> ~ overlap fl' g) ->
  Forall is_byte rx -> length rx = length b ->
  (forall i, 0 <= i < 8 * Z.of_nat (length b) ->
     ~ (8 * start_of (fr_stack f) k + f_off fl' <= i < 8 * start_of (fr_stack f) k + f_off fl' + f_width fl') -> bit_at rx i = bit_at b i) ->
  accepts c rx.
Proof.
  intros w a F c f0 f b k h h' j fl fl' rx Hw HC Hf HS Hp Hsv [Hk Hk'] Hj Hsk Hj' Hov Hr Hl Hd.
  apply (expectation_ignoring w a F c f0 f b rx); auto. { exists h, fl. split; [eapply nth_error_In; eauto|split; [eapply nth_error_In; eauto|auto]]. }
  split; auto. intros i Hi Hc. apply Hd; auto. intros Hin.
  pose proof (serialised_mask _ _ _ _ HS Hsv) as HW.
  assert (HF : Forall (fun h => 0 <= h_size h) (fr_stack f)) by (eapply Forall_impl; [|exact HW]; intros x [K _]; auto).
  assert (Hh' : well_formed_mask h') by (rewrite Forall_forall in HW; apply HW; eapply nth_error_In; eauto).
  assert (HB : frame_to_buf f0 = Ret (f, b)) by (destruct HS as [_ [_ HB]]; exact HB).
  destruct (framed_command _ _ _ _ _ _ _ Hw HC Hf HS) as [[_ [f1 [A1 [A2 A3]]]] [Hb _]].
  assert (f1 = f0) by (destruct HS as [[n HA] _]; congruence). subst f1.
  assert (HM : fr_has_mask f0 = true). { eapply (ignored_marks _ _ _ h fl); [exact A1| | |auto]; eapply nth_error_In; eauto. }
  pose proof (frame_to_buf_inv _ _ _ HB) as [_ [P1 [P2 _]]]. rewrite P2, HM in A3. destruct A3 as [m [M1 M2]].
  pose proof (mask_length _ _ _ _ HB M1) as ML. apply (counts_mask _ _ M1 HW) in Hc; [|rewrite ML; lia].
  destruct (mask_bits _ _ M1 HW) as [_ [_ [M3 M4]]].
  assert (W' : within h' fl').
  { assert (K : seated h') by (eapply emitted_mask; [exact HS|split; eauto|]; rewrite forallb_forall in Hsv; apply Hsv; eapply nth_error_In; eauto).
    destruct (proj2 K fl' ltac:(eapply nth_error_In; eauto)) as [_ [K0|K0]]; [lia|exact K0]. }
  destruct W' as [W1 [W2 W3]]. specialize (M4 k h' (i - 8 * start_of (fr_stack f) k) Hk' ltac:(lia)).
  replace (8 * start_of (fr_stack f) k + (i - 8 * start_of (fr_stack f) k)) with i in M4 by lia. apply M4 in Hc. destruct Hc as [g [G1 [G2 G3]]].
  apply (Hov g G1 G2). unfold overlap. lia.
Qed.

(** C46: how often, in words *)
Lemma times_once : forall ifn F c, command_words ("tx" :: ifn :: F) c -> (forall r, F <> "rep" :: r /\ F <> "repeat" :: r)%string -> times c = 1.
Proof.
  intros ifn F c HC HR. apply command_syntax in HC. unfold times. inversion HC; subst; cbn [c_repeat]; [reflexivity|].
  exfalso. match goal with H : In ?rep _ |- _ => destruct H as [<-|[<-|[]]] end; [eapply (proj1 (HR _)); reflexivity|eapply (proj2 (HR _)); reflexivity].
Qed.

Lemma times_given : forall ifn rep k n F c, In rep ["rep"; "repeat"]%string -> command_words ("tx" :: ifn :: rep :: k :: F) c -> denotes 10 k n -> 0 < n < 2 ^ 32 -> times c = n.
Proof.
  intros ifn rep k n F c HR HC HD HN. apply command_syntax in HC. unfold times. inversion HC; subst; cbn [c_repeat].
  - exfalso. match goal with H : contents _ _ _ _ _ |- _ => pose proof (not_reps _ _ _ _ _ H _ _ eq_refl) as K end. destruct HR as [<-|[<-|[]]]; discriminate K.
  - rewrite (repeat_number k n HD ltac:(lia)). destruct (Z.eqb_spec n 0); lia.
Qed.

Lemma accepted_mask : forall ws f f' b m, serialised ws f f' b -> forallb sv_whole (fr_stack f) = true -> frame_mask_to_buf f' = Ret m ->
  length m = length b /\ forall i, 0 <= i < 8 * Z.of_nat (length m) -> (bit_at m i = true <-> counts f' i).
Proof.
  intros ws f f' b m HS Hsv HM. pose proof HS as [_ [_ HB]]. split; [eapply mask_length; eauto|].
  apply counts_mask; auto. eapply serialised_mask; eauto.
Qed.

(** *** Witnesses *)
Definition parsed_of (ws : list string) : frame := match argc_frame ws with Ret (Some (_, f)) => f | _ => empty_frame end.
Definition emitted_of (ws : list string) : frame * buf := match frame_to_buf (parsed_of ws) with Ret p => p | _ => (empty_frame, []) end.

Definition mld_words : list string := ["eth"; "dmac"; "ign"; "ipv6"; "sip"; "::1"; "dip"; "::2"; "mld"; "type"; "130"]%string.
Definition mld_parsed : frame := Eval vm_compute in parsed_of mld_words.
Definition mld_emitted : frame * buf := Eval vm_compute in emitted_of mld_words.

Lemma mld_mask_aborts : exists ws f f' b, serialised ws f f' b /\ ignores f /\ frame_mask_to_buf f' = Crash Assert_fail /\
  parse_cmds ("rx" :: "eth0" :: ws)%string = Crash Assert_fail.
Proof.
  exists mld_words, mld_parsed, (fst mld_emitted), (snd mld_emitted). split; [|split; [|split; vm_compute; reflexivity]].
  - split; [exists 11%nat; vm_compute; reflexivity|]. split; [|vm_compute; reflexivity]. apply Forall_forall. apply forallb_forall. vm_compute. reflexivity.
  - exists (nth 0 (fr_stack mld_parsed) HDR_ETH), (nth 0 (h_fields (nth 0 (fr_stack mld_parsed) HDR_ETH)) (MkField "" false 0 0 None None FP_default)). split; [left; reflexivity|]. split; [left; reflexivity|reflexivity].
Qed.

Definition sv_words : list string := ["rx"; "eth0"; "eth"; "sv"; "eth"; "smac"; "ign"]%string.
Definition sv_cmd : cmd := Eval vm_compute in match argc_cmd sv_words with Ret (COk _ c) => c | _ => MkCmd CT_rx None None None None None false 0 end.
Definition sv_frame : frame := Eval vm_compute in match c_frame sv_cmd with Some f => f | None => empty_frame end.
Definition sv_buf : buf := Eval vm_compute in match c_buf sv_cmd with Some f => f | None => [] end.

Lemma short_sv_compared : exists ws c f b k h fl rx, command_words ("rx" :: "eth0" :: ws)%string c /\ c_frame c = Some f /\ c_buf c = Some b /\ fr_padding f = 0 /\
  nth_error (fr_stack f) k = Some h /\ In fl (h_fields h) /\ f_skip fl = true /\ within h fl /\ (forall g, In g (h_fields h) -> f_skip g = false -> ~ overlap fl g) /\
  Forall is_byte rx /\ length rx = length b /\
  (forall i, 0 <= i < 8 * Z.of_nat (length b) ->
     ~ (8 * start_of (fr_stack f) k + f_off fl <= i < 8 * start_of (fr_stack f) k + f_off fl + f_width fl) -> bit_at rx i = bit_at b i) /\
  ~ accepts c rx.
Proof.
  exists (skipn 2 sv_words), sv_cmd, sv_frame, sv_buf, 2%nat, (nth 2 (fr_stack sv_frame) HDR_ETH), (nth 1 (h_fields (nth 2 (fr_stack sv_frame) HDR_ETH)) (MkField "" false 0 0 None None FP_default)), (upd sv_buf 34 (nth 34 sv_buf 0 + 1)).
  split; [vm_compute; reflexivity|]. do 3 (split; [reflexivity|]). split; [reflexivity|]. split; [right; left; reflexivity|]. split; [reflexivity|].
  split; [unfold within; vm_compute; intuition discriminate|].
  split. { intros g Hg Hs [H1 H2]. cbn [nth sv_frame fr_stack h_fields In] in Hg. destruct Hg as [<-|[<-|[<-|[]]]]; vm_compute in Hs, H1, H2; congruence. }
  split; [apply Forall_forall; assert (K : forallb (fun x => (0 <=? x) && (x <? 256)) (upd sv_buf 34 (nth 34 sv_buf 0 + 1)) = true) by (vm_compute; reflexivity); rewrite forallb_forall in K; intros x Hx; specialize (K x Hx); unfold is_byte; lia|].
  split; [vm_compute; reflexivity|]. split.
  - intros i Hi Ho. assert (K : i / 8 <> 34).
    { intros Hd. apply Ho. change (8 * start_of (fr_stack sv_frame) 2) with 224. change (f_off _) with 48. change (f_width _) with 48. lia. }
    unfold bit_at. f_equal.
    assert (E : nth_error (upd sv_buf 34 (nth 34 sv_buf 0 + 1)) (Z.to_nat (i / 8)) = nth_error sv_buf (Z.to_nat (i / 8))).
    { rewrite nth_error_upd. destruct (Nat.eqb_spec (Z.to_nat (i / 8)) 34); [lia|reflexivity]. }
    destruct (nth_error sv_buf (Z.to_nat (i / 8))) as [y|] eqn:E2; [rewrite (nth_error_nth _ _ 0 E), (nth_error_nth _ _ 0 E2); reflexivity|].
    apply nth_error_None in E, E2. rewrite 2 nth_overflow by auto. reflexivity.
  - intros [_ [x [E [_ H]]]]. assert (x = sv_buf) by (change (c_buf sv_cmd) with (Some sv_buf) in E; congruence). subst x.
    remember (c_mask sv_cmd) as m eqn:Em. destruct m as [m|]; [|discriminate Em]. specialize (H 34%nat ltac:(vm_compute; lia)).
    assert (nth 34 m 255 = 255) by (apply some_inj in Em; subst m; reflexivity). rewrite H0 in H. vm_compute in H. discriminate.
Qed.

Definition some_words : list string := ["eth"; "dmac"; "ign"; "smac"; "::2"; "ipv4"; "sip"; "1.2.3.4"; "ttl"; "ign"; "udp"]%string.
Definition some_parsed : frame := Eval vm_compute in parsed_of some_words.
Definition some_emitted : frame * buf := Eval vm_compute in emitted_of some_words.
Definition some_cmd : cmd := Eval vm_compute in match argc_cmd ("rx" :: "eth0" :: some_words)%string with Ret (COk _ c) => c | _ => MkCmd CT_rx None None None None None false 0 end.

Lemma expectation_case : exists c f0 f b, command_words ("rx" :: "eth0" :: some_words)%string c /\
  c_frame c = Some f /\ serialised some_words f0 f b /\
  fr_padding f0 = 0 /\ forallb sv_whole (fr_stack f0) = true /\ ignores f0 /\ nth 0 b 0 = 255 /\ counts f 48 /\
  (forall h, In h (fr_stack f0) -> ~ In (h_name h) ["igmp"; "mld"; "sv"]%string) /\ accepts c ([1; 2; 3; 4; 5; 6] ++ skipn 6 b).
Proof.
  exists some_cmd, some_parsed, (fst some_emitted), (snd some_emitted). split; [vm_compute; reflexivity|]. split; [reflexivity|].
  split. { split; [exists 11%nat; vm_compute; reflexivity|]. split; [|vm_compute; reflexivity]. apply Forall_forall. apply forallb_forall. vm_compute. reflexivity. }
  split; [reflexivity|]. split; [vm_compute; reflexivity|].
  split. { exists (nth 0 (fr_stack some_parsed) HDR_ETH), (nth 0 (h_fields (nth 0 (fr_stack some_parsed) HDR_ETH)) (MkField "" false 0 0 None None FP_default)). split; [left; reflexivity|]. split; [left; reflexivity|reflexivity]. }
  split; [reflexivity|].
  split. { right. exists 0%nat, (nth 0 (fr_stack (fst some_emitted)) HDR_ETH), (nth 1 (h_fields (nth 0 (fr_stack (fst some_emitted)) HDR_ETH)) (MkField "" false 0 0 None None FP_default)).
    split; [reflexivity|]. split; [right; left; reflexivity|]. split; [reflexivity|]. vm_compute. intuition discriminate. }
  split. { intros h Hh Hn. cbn [some_parsed fr_stack In] in Hh. destruct Hh as [<-|[<-|[<-|[]]]]; cbn [h_name] in Hn; destruct Hn as [Hn|[Hn|[Hn|[]]]]; discriminate Hn. }
  split; [eexists; split; reflexivity|]. exists (snd some_emitted). split; [reflexivity|]. split; [reflexivity|].
  remember (c_mask some_cmd) as m eqn:Em. destruct m as [m|]; [|discriminate Em]. apply some_inj in Em. intros i Hi.
  assert (K : forallb (fun i => Z.land (nth i ([1; 2; 3; 4; 5; 6] ++ skipn 6 (snd some_emitted)) 0) (nth i m 255) =? Z.land (nth i (snd some_emitted) 0) (nth i m 255)) (seq 0 (length (snd some_emitted))) = true) by (subst m; vm_compute; reflexivity).
  rewrite forallb_forall in K. specialize (K i ltac:(apply in_seq; lia)). apply Z.eqb_eq in K. exact K.
Qed.

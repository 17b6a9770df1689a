(** Expectations with ignored fields: the commands (C83). *)

From Verif Require Import PTextIp PTextNum PTextHex PTextMac PTextAddr Frame PSer SpecParse PParse PMatch SpecFrame PFrame PInv PStep PArgs PSoft PFill PGroup PAll PSafe PAssign PField SpecOrigin POrigin PImage PSum PEmit SpecFill PCheck PCheck2 PLen PKeep PTwice PCoap PSegs PWords SpecLayout PLayout Cmd Exec SpecExec PCmd PPair PExec PReplay SpecWhole PWhole SpecExact PExact SpecForm PForm PForm2 PForm3 PForm4 PForm5 PForm6 PForm7 PMask PIgnore PSyntax SpecWish PWish PWish2 PWish3 PRoom.

Lemma asked_head : forall ws w r, Forall well_wished ws -> asked ws = w :: r -> In w heads.
Proof.
  intros [|x ws] w r HW H; [discriminate|]. destruct (Forall_inv HW) as [[HF _] _]. pose proof (part_head _ _ HF) as K. cbn [asked flat_map] in H. destruct (wish_starts x) as [r0 E]. rewrite E in H. cbn [app] in H. congruence.
Qed.

Lemma asked_nil : forall ws, ws <> [] -> asked ws <> [].
Proof. intros [|x ws] H; [congruence|]. cbn [asked flat_map]. destruct (wish_starts x) as [r0 E]. rewrite E. discriminate. Qed.

Lemma asked_not_name : forall ws w r, Forall well_wished ws -> asked ws = w :: r -> w <> "name"%string.
Proof. intros ws w r HW H. pose proof heads_name as K. rewrite forallb_forall in K. specialize (K w (asked_head _ _ _ HW H)). apply negb_true_iff, String.eqb_neq in K. exact K. Qed.

Lemma asked_spelled : forall ws hs mk f' b, Forall well_wished ws -> addressed (map plain ws) -> total (map plain ws) <= 8 * 130000 -> Forall2 made_wish ws hs ->
  serialised (asked ws) (MkFrame hs 0 mk) f' b -> spelled (map plain ws) b.
Proof. intros ws hs mk f' b HW HA HT HM HS. eapply (emitted_spelled (map plain ws) hs); eauto; [apply well_plain; auto|apply made_plain; auto]. Qed.

(** A command with the words of an expectation is about the frame of these words. *)
Lemma wish_command : forall w a ws c f0 f' b, In w ["rx"; "name"]%string -> ws <> [] -> Forall well_wished ws -> command_words (w :: a :: asked ws) c ->
  argc_frame (asked ws) = Ret (Some (length (asked ws), f0)) -> serialised (asked ws) f0 f' b -> c_frame c = Some f'.
Proof.
  intros w a ws c f0 f' b Hw Hn HW HC HA [_ [_ HB]]. apply command_syntax in HC.
  assert (G : forall f1 b1 m, a_frame (asked ws) f1 b1 m -> f1 = f').
  { intros f1 b1 m [_ [f2 [X1 [X2 _]]]]. assert (f2 = f0) by congruence. subst f2. congruence. }
  pose proof (asked_nil _ Hn) as HN. pose proof (asked_not_name ws) as HX. remember (asked ws) as F eqn:EF. destruct Hw as [<-|[<-|[]]].
  - inversion HC; subst; [|congruence]. match goal with H : contents _ _ _ _ _ |- _ => inversion H; subst end; cbn [c_frame].
    + f_equal. eapply G; eauto.
    + match goal with H : _ = asked ws |- _ => destruct (HX _ _ HW (eq_sym H)); reflexivity end.
  - inversion HC; subst. cbn [c_frame]. f_equal. eapply G; eauto.
Qed.

Lemma wishes_accept : forall w a ws c b rx, In w ["rx"; "name"]%string -> well_asked ws -> sv_full ws -> command_words (w :: a :: asked ws) c -> spelled (map plain ws) b -> Forall is_byte rx ->
  (accepts c rx <-> length rx = length b /\ forall i, 0 <= i < 8 * Z.of_nat (length b) -> ~ disregarded ws i -> bit_at rx i = bit_at b i).
Proof.
  intros w a ws c b rx Hw [Hn [HW [HA [HP [HL HT]]]]] SV HC Hb Hr. destruct (asked_serialised ws HW HA HP HL HT) as [hs [mk [f' [b' [H1 [H2 H3]]]]]].
  pose proof (asked_spelled _ _ _ _ _ HW HA HT H1 H3) as Hb'. rewrite (spelled_one (map plain ws) b b' (well_plain _ HW) Hb Hb') in *.
  eapply (wish_accepts ws hs HW H1 SV f' b' H3); eauto. eapply wish_command; eauto.
Qed.

Lemma wish_room : forall ws hs mk f' b, Forall well_wished ws -> total (map plain ws) <= 8 * 130000 -> Forall2 made_wish ws hs -> serialised (asked ws) (MkFrame hs 0 mk) f' b -> roomy ws -> exists m, frame_mask_to_buf f' = Ret m.
Proof.
  intros ws hs mk f' b HW HT HM HS HR. eapply mask_room; [exact HS|]. intros k h Hk Hn. cbn [fr_stack] in Hk.
  destruct (nth_made _ _ (made_plain _ _ HM) _ _ Hk) as [it [H1 H2]]. rewrite nth_error_map in H1. destruct (nth_error ws k) as [x|] eqn:Hx; [|discriminate]. cbn [option_map] in H1. apply some_inj in H1. subst it.
  rewrite (at_part (map plain ws) hs (well_plain _ HW) (made_plain _ _ HM) f' b HS).
  destruct x as [[p m] all]. destruct p as [n asg|ps|num ps|ps]; cbn [plain] in H2; pose proof (made_named _ _ _ H2) as EN; cbn [part_name] in EN; rewrite EN in Hn |- *; try (cbn in Hn; intuition discriminate).
  specialize (HR _ _ _ _ _ Hx). change (needs n) with (room_for n). pose proof HS as [_ [_ HF]]. rewrite (emitted_length _ _ _ HF), (whole_size (map plain ws) hs (well_plain _ HW) (made_plain _ _ HM) f' b HS). exact HR.
Qed.

Lemma wishes_command : forall w a ws, In w ["rx"; "name"]%string -> well_asked ws -> roomy ws -> exists c, command_words (w :: a :: asked ws) c /\ exists b, c_buf c = Some b /\ spelled (map plain ws) b.
Proof.
  intros w a ws Hw [Hn [HW [HA [HP [HL HT]]]]] HK. destruct (asked_serialised ws HW HA HP HL HT) as [hs [mk [f' [b [H1 [H2 H3]]]]]].
  destruct (wish_room _ _ _ _ _ HW HT H1 H3 HK) as [m Hm]. pose proof H3 as [_ [_ HB]].
  assert (HF : exists mo, a_frame (asked ws) f' b mo).
  { destruct (fr_has_mask f') eqn:EM; [exists (Some m)|exists None]; (split; [apply asked_nil; auto|]); eexists; (split; [exact H2|]); (split; [exact HB|]); rewrite EM; eauto. }
  destruct HF as [mo HF]. pose proof (asked_spelled _ _ _ _ _ HW HA HT H1 H3) as Hb. destruct Hw as [<-|[<-|[]]].
  - eexists. split; [apply command_syntax; apply text_rx; apply by_frame; exact HF|]. exists b. auto.
  - eexists. split; [apply command_syntax; apply text_name; exact HF|]. exists b. auto.
Qed.

(** The report can be read in one way only; errors on stderr (C72, C73). *)

From Verif Require Import PTextIp PTextNum PTextHex Frame PBits PSer SpecParse PParse PMatch SpecFrame PFrame PField Exec SpecExec PCmd PPair PExec PRecv PVerdict PReplay PSyntax PEvents SpecLayout SpecWhole PWhole Report SpecReport PReport.
Local Open Scope string_scope.

(** ** Injectivity *)

Lemma hex_inj : forall b b', bytes_ok b -> bytes_ok b' -> hex_str b = hex_str b' -> b = b'.
Proof.
  intros b b' H H' E. destruct b as [|x b]; destruct b' as [|x' b']; auto; try discriminate.
  assert (K : parse_var_bytes ["hex"; hex_str (x :: b)] = Ret (2%Z, Some (x :: b))) by (apply hex_words; [apply is_byte_bytes; auto|discriminate]).
  assert (K' : parse_var_bytes ["hex"; hex_str (x' :: b')] = Ret (2%Z, Some (x' :: b'))) by (apply hex_words; [apply is_byte_bytes; auto|discriminate]).
  rewrite E, K' in K. congruence.
Qed.

Lemma app_inj : forall k s t : string, k ++ s = k ++ t -> s = t.
Proof. induction k as [|c k IH]; intros s t H; [auto|]. cbn [String.append] in H. assert (k ++ s = k ++ t) by congruence. auto. Qed.

Lemma column_inj : forall n i t i' t', plain_word i -> plain_word i' -> pad_left n i ++ ": " ++ t = pad_left n i' ++ ": " ++ t' -> i = i' /\ t = t'.
Proof.
  intros n i t i' t' H H' E. assert (E2 : i ++ ": " ++ t = i' ++ ": " ++ t').
  { change (": " ++ t) with (":" ++ (" " ++ t)) in *. change (": " ++ t') with (":" ++ (" " ++ t')) in *. rewrite <- (trim_pad n i), <- (trim_pad n i') by auto. rewrite E. auto. }
  pose proof (after_name i' i t H H') as A. pose proof (after_name i' i' t' H' H') as B. rewrite String.eqb_refl in B. rewrite E2, B in A. destruct (String.eqb_spec i i'); [split; congruence|discriminate].
Qed.

Lemma frame_inj : forall n b n' b', bytes_ok b -> bytes_ok b' -> print_frame n b = print_frame n' b' -> n = n' /\ (n = None -> b = b').
Proof.
  assert (K : forall n b, bytes_ok b -> "name " ++ n = hex_str b -> False).
  { intros n b H E. pose proof (after_hex "n" "ame " b H ltac:(nohex)) as A. rewrite <- E in A. rewrite after_app in A. discriminate. }
  intros [n|] b [n'|] b' H H' E; cbn [print_frame] in E.
  - apply app_inj in E. subst. split; [auto|discriminate].
  - destruct (K _ _ H' E).
  - symmetry in E. destruct (K _ _ H E).
  - split; [auto|]. intros _. apply hex_inj; auto.
Qed.

(** ** stdout *)

Definition seen_out (x : event) : Prop :=
  match x with
  | EvName n b m => plain_word n /\ bytes_ok b /\ mask_fine m
  | EvHex b m => bytes_ok b /\ b <> [] /\ mask_fine m
  | EvRxOk i b n m => plain_word i /\ bytes_ok b /\ mask_fine m /\ (n <> None -> b = [] /\ m = None)
  | EvTx i b n => plain_word i /\ bytes_ok b /\ (n <> None -> b = [])
  | _ => False
  end.

Definition no_mask (L : list string) : Prop := match L with h :: _ => after "NAME MASK" h = None /\ after "RX-OK M" h = None | [] => True end.

Lemma head_no_mask : forall l, Forall seen_out l -> no_mask (flat_map out_lines l).
Proof.
  intros l H. destruct H as [|x l H1 _]; [exact I|]. cbn [flat_map]. destruct x as [n b m|n|f b|b m|i b n m|i b|i b ok|i b n|i b n m]; try destruct H1; cbn [out_lines app no_mask]; try (split; reflexivity).
  destruct m; cbn [app no_mask]; [split; reflexivity|]. split; apply after_hex; auto; nohex.
Qed.

Lemma hex_vs : forall c k b, bytes_ok b -> ~ In c (chars "0123456789abcdef") -> hex_str b = String c k -> False.
Proof. intros c k b H HC E. pose proof (after_hex c "" b H HC) as A. rewrite E in A. cbn in A. rewrite Ascii.eqb_refl in A. discriminate. Qed.

Ltac vs := exfalso; match goal with
  | H : _ :: _ = _ :: _ |- _ =>
      let E := fresh in assert (E := f_equal (hd "") H); cbn [hd] in E;
      first [ discriminate E
            | eapply hex_vs; [| |exact E]; [assumption|nohex]
            | eapply hex_vs; [| |symmetry; exact E]; [assumption|nohex] ]
  end.

Lemma cons_eq : forall A (x y : A) l m, x :: l = y :: m -> x = y /\ l = m.
Proof. intros. split; congruence. Qed.

Lemma step_out : forall x y L M, seen_out x -> seen_out y -> no_mask L -> no_mask M -> (out_lines x ++ L = out_lines y ++ M)%list -> x = y /\ L = M.
Proof.
  intros x y L M Hx Hy HL HM E. destruct x as [n b m|n|f b|b m|i b n m|i b|i b ok|i b n|i b n m]; try destruct Hx;
  destruct y as [n' b' m'|n'|f' b'|b' m'|i' b' n' m'|i' b'|i' b' ok'|i' b' n'|i' b' n' m']; try destruct Hy; cbn [seen_out out_lines app] in *.
  all: try (destruct m; destruct m'; cbn [app] in E; vs; fail).
  all: try (destruct m; cbn [app] in E; vs; fail).
  all: try (destruct m'; cbn [app] in E; vs; fail).
  all: try (vs; fail).
  - destruct H0 as [B1 M1]. destruct H2 as [B2 M2]. apply cons_eq in E. destruct E as [E1 E2]. apply app_inj in E1. apply column_inj in E1; [|auto|auto]. destruct E1 as [-> E1]. apply hex_inj in E1; [|auto|auto]. subst b'.
    destruct m as [m|]; destruct m' as [m'|]; cbn [app] in E2.
    + apply cons_eq in E2. destruct E2 as [E2 ->]. apply app_inj in E2. apply hex_inj in E2; [|auto|auto]. subst. auto.
    + subst M. destruct HM as [HM _]. discriminate HM.
    + subst L. destruct HL as [HL _]. discriminate HL.
    + auto.
  - destruct H0 as [N1 M1]. destruct H2 as [N2 M2]. destruct m as [m|]; destruct m' as [m'|]; cbn [app] in E; try vs.
    + apply cons_eq in E. destruct E as [E1 E]. apply cons_eq in E. destruct E as [E2 ->]. apply app_inj in E1, E2. apply hex_inj in E1; [|auto|auto]. apply hex_inj in E2; [|auto|auto]. subst. auto.
    + apply cons_eq in E. destruct E as [E1 ->]. apply hex_inj in E1; [|auto|auto]. subst. auto.
  - destruct H0 as [B1 [M1 C1]]. destruct H2 as [B2 [M2 C2]]. apply cons_eq in E. destruct E as [E1 E2]. apply app_inj in E1. apply column_inj in E1; [|auto|auto]. destruct E1 as [-> E1]. apply frame_inj in E1; [|auto|auto]. destruct E1 as [-> E1].
    destruct n' as [n|].
    + destruct (C1 ltac:(discriminate)) as [-> ->]. destruct (C2 ltac:(discriminate)) as [-> ->]. cbn [app] in E2. subst. auto.
    + rewrite (E1 eq_refl) in *. destruct m as [m|]; destruct m' as [m'|]; cbn [app] in E2.
      * apply cons_eq in E2. destruct E2 as [E2 E3]. apply cons_eq in E3. destruct E3 as [_ ->]. apply app_inj in E2. apply hex_inj in E2; [|auto|auto]. subst. auto.
      * subst M. destruct HM as [_ HM]. discriminate HM.
      * subst L. destruct HL as [_ HL]. discriminate HL.
      * auto.
  - destruct H0 as [B1 C1]. destruct H2 as [B2 C2]. apply cons_eq in E. destruct E as [E1 ->]. apply app_inj in E1. apply column_inj in E1; [|auto|auto]. destruct E1 as [-> E1]. apply frame_inj in E1; [|auto|auto]. destruct E1 as [-> E1].
    destruct n' as [n|]; [rewrite (C1 ltac:(discriminate)), (C2 ltac:(discriminate)); auto|rewrite (E1 eq_refl); auto].
Qed.

Lemma out_lines_cons : forall x, seen_out x -> out_lines x <> [].
Proof. intros [n b m|n|f b|b m|i b n m|i b|i b ok|i b n|i b n m] H; try destruct H; cbn [out_lines]; try discriminate. destruct m; discriminate. Qed.

Lemma out_unique : forall l l', Forall seen_out l -> Forall seen_out l' -> flat_map out_lines l = flat_map out_lines l' -> l = l'.
Proof.
  induction l as [|x l IH]; intros l' H H' E.
  - destruct H' as [|y l' H1 _]; [auto|]. cbn [flat_map] in E. symmetry in E. apply app_eq_nil in E. destruct E as [E _]. destruct (out_lines_cons _ H1 E).
  - destruct l' as [|y l']; [cbn [flat_map] in E; apply app_eq_nil in E; destruct E as [E _]; destruct (out_lines_cons _ (Forall_inv H) E)|].
    cbn [flat_map] in E. pose proof (Forall_inv_tail H) as T. pose proof (Forall_inv_tail H') as T'. destruct (step_out x y _ _ (Forall_inv H) (Forall_inv H') (head_no_mask _ T) (head_no_mask _ T') E) as [-> E2]. f_equal. auto.
Qed.

Lemma on_stdout_lines : forall ev, flat_map out_lines (on_stdout ev) = flat_map out_lines ev.
Proof.
  intros ev. unfold on_stdout. rewrite flat_flat. induction ev as [|x ev IH]; [auto|]. cbn [flat_map]. rewrite IH. f_equal. 
  destruct x as [n b m|n|f b|b m|i b n m|i b|i b ok|i b n|i b n m]; try destruct n; cbn [flat_map]; rewrite ?app_nil_r; auto.
Qed.

(** ** stderr *)

Definition seen_err (x : event) : Prop :=
  match x with
  | EvNoName n => True
  | EvRxErr i b => plain_word i /\ bytes_ok b
  | EvNoRx i b n m => plain_word i /\ bytes_ok b /\ mask_fine m /\ (n <> None -> b = [] /\ m = None)
  | _ => False
  end.

Lemma step_err : forall x y L M, seen_err x -> seen_err y -> (err_lines x ++ L = err_lines y ++ M)%list -> x = y /\ L = M.
Proof.
  intros x y L M Hx Hy E. destruct x as [n b m|n|f b|b m|i b n m|i b|i b ok|i b n|i b n m]; try (destruct Hx; fail);
  destruct y as [n' b' m'|n'|f' b'|b' m'|i' b' n' m'|i' b'|i' b' ok'|i' b' n'|i' b' n' m']; try (destruct Hy; fail); cbn [seen_err err_lines app] in *.
  all: try (vs; fail).
  - apply cons_eq in E. destruct E as [E ->]. apply app_inj in E. subst. auto.
  - destruct Hx as [H1 B1]. destruct Hy as [H2 B2]. apply cons_eq in E. destruct E as [E1 ->]. apply app_inj in E1. apply column_inj in E1; [|auto|auto]. destruct E1 as [-> E1]. apply hex_inj in E1; [|auto|auto]. subst. auto.
  - destruct Hx as [H1 [B1 [M1 C1]]]. destruct Hy as [H2 [B2 [M2 C2]]]. apply cons_eq in E. destruct E as [E1 E2]. apply app_inj in E1. apply column_inj in E1; [|auto|auto]. destruct E1 as [-> E1]. apply frame_inj in E1; [|auto|auto]. destruct E1 as [-> E1].
    destruct n' as [n|].
    + destruct (C1 ltac:(discriminate)) as [-> ->]. destruct (C2 ltac:(discriminate)) as [-> ->]. cbn [app] in E2. subst. auto.
    + rewrite (E1 eq_refl) in *. destruct m as [m|]; destruct m' as [m'|]; cbn [app] in E2; apply cons_eq in E2; destruct E2 as [E2 E3]; try discriminate E2.
      * apply cons_eq in E3. destruct E3 as [_ ->]. apply app_inj in E2. apply hex_inj in E2; [|auto|auto]. subst. auto.
      * subst. auto.
Qed.

Lemma err_lines_cons : forall x, seen_err x -> err_lines x <> [].
Proof. intros [n b m|n|f b|b m|i b n m|i b|i b ok|i b n|i b n m] H; try (destruct H; fail); cbn [err_lines]; discriminate. Qed.

Lemma err_unique : forall l l', Forall seen_err l -> Forall seen_err l' -> flat_map err_lines l = flat_map err_lines l' -> l = l'.
Proof.
  induction l as [|x l IH]; intros l' H H' E.
  - destruct H' as [|y l' H1 _]; [auto|]. cbn [flat_map] in E. symmetry in E. apply app_eq_nil in E. destruct E as [E _]. destruct (err_lines_cons _ H1 E).
  - destruct l' as [|y l']; [cbn [flat_map] in E; apply app_eq_nil in E; destruct E as [E _]; destruct (err_lines_cons _ (Forall_inv H) E)|].
    cbn [flat_map] in E. destruct (step_err x y _ _ (Forall_inv H) (Forall_inv H') E) as [-> E2]. f_equal. apply IH; auto; eapply Forall_inv_tail; eauto.
Qed.

Lemma on_stderr_lines : forall ev, flat_map err_lines (on_stderr ev) = flat_map err_lines ev.
Proof.
  intros ev. unfold on_stderr. rewrite flat_flat. induction ev as [|x ev IH]; [auto|]. cbn [flat_map]. rewrite IH. f_equal.
  destruct x as [n b m|n|f b|b m|i b n m|i b|i b ok|i b n|i b n m]; try destruct n; cbn [flat_map]; rewrite ?app_nil_r; auto.
Qed.

(** ** Runs *)

Lemma words_printable : forall cs, printable_words cs -> printable cs.
Proof. intros cs H c Hc. destruct (H c Hc) as [A B]. split; [auto|]. intros n Hn. apply plain_one_line. auto. Qed.

Lemma run_seen : forall ws e cs r ev, runs ws e cs r ev -> of_bytes (e_rounds e) -> printable_words cs -> Forall seen_out (on_stdout ev) /\ Forall seen_err (on_stderr ev).
Proof.
  intros ws e cs r ev HR HB HP. pose proof (stems_fine _ _ _ _ _ HR HB (words_printable _ HP)) as HF. pose proof (run_stems _ _ _ _ _ HR HB) as HS. destruct (run_ready _ _ _ _ _ HR) as [HC _]. rewrite Forall_forall in HF, HS, HC. rewrite !Forall_forall.
  split; intros x Hx; unfold on_stdout, on_stderr in Hx; apply in_flat_map in Hx; destruct Hx as [y [Hy Hx]]; specialize (HF _ Hy); specialize (HS _ Hy).
  - destruct y as [n b m|n|f b|b m|i b n m|i b|i b ok|i b n|i b n m]; try (destruct Hx; fail); cbn [fine stems] in *.
    + destruct Hx as [<-|[]]. destruct HS as [c [C1 [_ [C2 _]]]]. cbn. split; [apply (HP c C1); auto|]. split; apply HF.
    + destruct Hx as [<-|[]]. destruct HS as [c [C1 [C2 _]]]. cbn. split; [apply HF|]. split; [|apply HF]. intros ->. destruct (y_bytes _ (HC c C1) _ C2) as [_ X]. cbn in X. lia.
    + destruct n as [n|]; destruct Hx as [<-|[]]; cbn; (split; [apply HF|]); [split; [constructor|]; auto|]. split; [apply HF|]. split; [apply HF|]. congruence.
    + destruct n as [n|]; destruct Hx as [<-|[]]; cbn; (split; [apply HF|]); [split; [constructor|]; auto|]. split; [apply HF|]. congruence.
  - destruct y as [n b m|n|f b|b m|i b n m|i b|i b ok|i b n|i b n m]; try (destruct Hx; fail); cbn [fine stems] in *.
    + destruct Hx as [<-|[]]. exact I.
    + destruct Hx as [<-|[]]. exact HF.
    + destruct n as [n|]; destruct Hx as [<-|[]]; cbn; (split; [apply HF|]); [split; [constructor|]; auto|]. split; [apply HF|]. split; [apply HF|]. congruence.
Qed.

(** C72 *)
Lemma report_unambiguous : forall ws e cs r ev ws' e' cs' r' ev',
  runs ws e cs r ev -> of_bytes (e_rounds e) -> printable_words cs -> runs ws' e' cs' r' ev' -> of_bytes (e_rounds e') -> printable_words cs' ->
  (stdout ev = stdout ev' <-> on_stdout ev = on_stdout ev') /\ (stderr ev = stderr ev' <-> on_stderr ev = on_stderr ev').
Proof.
  intros ws e cs r ev ws' e' cs' r' ev' R B P R' B' P'. destruct (run_seen _ _ _ _ _ R B P) as [S1 S2]. destruct (run_seen _ _ _ _ _ R' B' P') as [S1' S2'].
  pose proof (stems_fine _ _ _ _ _ R B (words_printable _ P)) as F. pose proof (stems_fine _ _ _ _ _ R' B' (words_printable _ P')) as F'.
  assert (U : forall l, texts (map event_stdout l) = unlines (flat_map out_lines l)).
  { assert (UA : forall a b, unlines (a ++ b)%list = unlines a ++ unlines b) by (induction a as [|x a IH]; intros b; [auto|]; cbn [unlines app]; rewrite IH; sapp; auto).
    induction l as [|x l IH]; [auto|]. cbn [map texts flat_map]. rewrite UA, IH, out_text. auto. }
  assert (V : forall l, texts (map event_stderr l) = unlines (flat_map err_lines l)).
  { assert (UA : forall a b, unlines (a ++ b)%list = unlines a ++ unlines b) by (induction a as [|x a IH]; intros b; [auto|]; cbn [unlines app]; rewrite IH; sapp; auto).
    induction l as [|x l IH]; [auto|]. cbn [map texts flat_map]. rewrite UA, IH, err_text. auto. }
  split; split; intros E.
  - apply out_unique; auto. rewrite !on_stdout_lines. rewrite <- !stdout_lines by auto. rewrite E. auto.
  - unfold stdout. rewrite !U, <- (on_stdout_lines ev), <- (on_stdout_lines ev'), E. auto.
  - apply err_unique; auto. rewrite !on_stderr_lines. rewrite <- !stderr_lines by auto. rewrite E. auto.
  - unfold stderr. rewrite !V, <- (on_stderr_lines ev), <- (on_stderr_lines ev'), E. auto.
Qed.

(** ** C73 *)
Lemma flat_filter : forall A B (p : B -> bool) (f : A -> list B) l, filter p (flat_map f l) = flat_map (fun x => filter p (f x)) l.
Proof. induction l as [|x l IH]; [auto|]. cbn [flat_map]. rewrite filter_app, IH. auto. Qed.

Definition marks : list string := ["RX-ERR "; "NO-RX  "].
Definition marked (l : string) : bool := existsb (fun k => is_some (after k l)) marks.

Lemma marked_event : forall x, fine x -> (forall n, x <> EvNoName n) -> length (filter marked (err_lines x)) = if is_error x then 1%nat else 0%nat.
Proof. intros [n b m|n|f b|b m|i b n m|i b|i b ok|i b n|i b n m] H HN; cbn [err_lines is_error filter]; auto; [destruct (HN n); auto|]. destruct n; [reflexivity|destruct m; reflexivity]. Qed.

Lemma stderr_count : forall ws e cs r ev, runs ws e cs r ev -> of_bytes (e_rounds e) -> printable cs ->
  r = Z.of_nat (length (lines_with ["RX-ERR "; "NO-RX  "] (stderr ev))) /\ (stderr ev = "" <-> r = 0%Z).
Proof.
  intros ws e cs r ev HR HB HP. pose proof (stems_fine _ _ _ _ _ HR HB HP) as HF. pose proof (run_stems _ _ _ _ _ HR HB) as HS. destruct (run_struct _ _ _ _ _ HR) as [n [rs [rs' [_ [_ [_ [_ [_ [EC _]]]]]]]]].
  assert (HK : Forall (fun x => fine x /\ forall k, x <> EvNoName k) ev). { rewrite Forall_forall in *. intros x Hx. split; [auto|]. intros k ->. destruct (HS _ Hx). }
  assert (EL : length (lines_with ["RX-ERR "; "NO-RX  "] (stderr ev)) = length (filter is_error ev)).
  { unfold lines_with. rewrite stderr_lines by auto. change (fun l => existsb (fun k => is_some (after k l)) ["RX-ERR "; "NO-RX  "]) with marked. rewrite flat_filter. clear - HK. induction HK as [|x ev [H1 H2] H IH]; [auto|].
    cbn [flat_map filter]. rewrite app_length, IH, marked_event by auto. destruct (is_error x); auto. }
  split; [lia|]. split; intros E.
  - rewrite E in EL. cbn in EL. lia.
  - assert (HZ : filter is_error ev = []) by (destruct (filter is_error ev); [auto|cbn in *; lia]). clear - HZ. unfold stderr. induction ev as [|x ev IH]; [auto|]. cbn [filter map texts] in *. destruct x; cbn [is_error] in HZ; try discriminate; auto.
Qed.

(** One line for every use of a name that is not defined. *)
Lemma undefined_lines : forall ws cs e, parse_cmds ws = Ret (Some cs) -> undefined_refs cs <> [] -> (forall n, In n (undefined_refs cs) -> one_line n) ->
  exists ev, argc_cmds ws e = Ret (Z.of_nat (length (undefined_refs cs)), ev) /\ lines (stderr ev) = map (fun n => "No frame in inventory called " ++ n) (undefined_refs cs).
Proof.
  intros ws cs e HP HU HL. destruct (named_frames ws cs e HP) as [HN _]. destruct (HN HU) as [inv [HI HA]]. exists (inv ++ map EvNoName (undefined_refs cs))%list. split; [exact HA|].
  unfold stderr. rewrite (lines_texts event_stderr err_lines).
  - rewrite flat_map_app. replace (flat_map err_lines inv) with (@nil string).
    + cbn [app]. clear. induction (undefined_refs cs) as [|n l IH]; [auto|]. cbn [map flat_map err_lines app]. rewrite IH. auto.
    + clear - HI. induction HI as [|x l H _ IH]; [auto|]. cbn [flat_map]. rewrite <- IH. destruct x; try destruct H. reflexivity.
  - apply Forall_app. split; rewrite Forall_forall in *; intros x Hx; split; try apply err_text.
    + specialize (HI _ Hx). destruct x; try destruct HI. constructor.
    + apply in_map_iff in Hx. destruct Hx as [n [<- Hn]]. cbn [err_lines]. constructor; [|constructor]. apply one_line_app; [apply const_one_line; reflexivity|auto].
Qed.

(** "hex" prints the line of hexadecimal digits. *)
Lemma hex_printed : forall b e ws, Forall is_byte b -> argc_cmds ws e = Ret (0%Z, [EvHex b None]) ->
  exists s, hex_text b s /\ stdout [EvHex b None] = s ++ String newline "" /\ stderr [EvHex b None] = "".
Proof. intros b e ws HB HA. exists (hex_str b). split; [apply hex_is_text; apply is_byte_bytes; auto|]. split; [|reflexivity]. unfold stdout. cbn [map texts event_stdout]. sapp. reflexivity. Qed.

Lemma frame_printed : forall hs ps e, Forall well_written hs -> Forall piece_ok ps -> text hs ps <> [] ->
  (Z.of_nat (length (text hs ps)) <= 100)%Z -> (Z.of_nat (length (payload ps)) <= 134000000)%Z ->
  exists b ev s, frame_is hs ps b /\ argc_cmds ("hex" :: text hs ps) e = Ret (0%Z, ev) /\ hex_text b s /\ stdout ev = s ++ String newline "" /\ stderr ev = "".
Proof.
  intros hs ps e H1 H2 H3 H4 H5. destruct (whole_printed hs ps e H1 H2 H3 H4 H5) as [b [HF HA]]. destruct (hex_printed b e _ (fi_bytes _ _ _ HF) HA) as [s [S1 [S2 S3]]].
  exists b, [EvHex b None], s. auto.
Qed.

(** The text of the report (C72, C73). *)

From Verif Require Import PTextIp PTextNum PTextHex Frame PBits PSer SpecParse PParse PMatch SpecFrame PFrame PField Exec SpecExec PCmd PPair PExec PRecv PVerdict PReplay PSyntax PEvents Report SpecReport.
Local Open Scope string_scope.

(** ** Lines *)

Lemma sapp_assoc : forall a b c : string, (a ++ b) ++ c = a ++ (b ++ c).
Proof. induction a as [|x a IH]; intros; cbn; [auto|rewrite IH; auto]. Qed.

Lemma sapp_nil : forall a : string, a ++ "" = a.
Proof. induction a as [|x a IH]; cbn; congruence. Qed.

Lemma one_line_app : forall a b, one_line a -> one_line b -> one_line (a ++ b).
Proof. unfold one_line. induction a as [|c a IH]; intros b Ha Hb; [auto|]. cbn [String.append chars] in *. intros [H|H]; [apply Ha; left; auto|]. apply (IH b); auto. intros X. apply Ha. right. auto. Qed.

Lemma lines_line : forall s t, one_line s -> lines (s ++ nl ++ t) = s :: lines t.
Proof.
  unfold one_line. induction s as [|c s IH]; intros t H; [reflexivity|]. cbn [String.append lines]. cbn [chars] in H.
  destruct (Ascii.eqb_spec c newline) as [->|_]; [destruct H; left; auto|]. rewrite IH; [auto|]. intros X. apply H. right. auto.
Qed.

Fixpoint unlines (ls : list string) : string := match ls with [] => "" | l :: r => l ++ nl ++ unlines r end.

Lemma lines_unlines : forall ls t, Forall one_line ls -> lines (unlines ls ++ t) = (ls ++ lines t)%list.
Proof. induction ls as [|l ls IH]; intros t H; [auto|]. cbn [unlines app]. rewrite sapp_assoc, sapp_assoc. rewrite lines_line by (apply Forall_inv in H; auto). rewrite IH by (apply Forall_inv_tail in H; auto). auto. Qed.

Lemma lines_texts : forall (f : event -> string) (g : event -> list string) ev,
  Forall (fun x => f x = unlines (g x) /\ Forall one_line (g x)) ev -> lines (texts (map f ev)) = flat_map g ev.
Proof. induction ev as [|x ev IH]; intros H; [auto|]. cbn [map texts flat_map]. pose proof (Forall_inv H) as [-> H2]. rewrite lines_unlines by auto. rewrite IH by (apply Forall_inv_tail in H; auto). auto. Qed.

(** The lines of an event. *)
Definition out_lines (x : event) : list string :=
  match x with
  | EvName n b m => ("NAME:  " ++ pad_left 16 n ++ ": " ++ hex_str b) :: match m with Some k => ["NAME MASK:               " ++ hex_str k] | None => [] end
  | EvHex b None => [hex_str b]
  | EvHex b (Some m) => ["DATA: " ++ hex_str b; "MASK: " ++ hex_str m]
  | EvRxOk i b n m => ("RX-OK  " ++ pad_left 16 i ++ ": " ++ print_frame n b) ::
      match n, m with None, Some k => ["RX-OK MASK:              " ++ hex_str k; ""] | _, _ => [] end
  | EvTx i b n => ["TX     " ++ pad_left 16 i ++ ": " ++ print_frame n b]
  | _ => []
  end.

Definition err_lines (x : event) : list string :=
  match x with
  | EvNoName n => ["No frame in inventory called " ++ n]
  | EvRxErr i b => ["RX-ERR " ++ pad_left 16 i ++ ": " ++ hex_str b]
  | EvNoRx i b n m => ("NO-RX  " ++ pad_left 16 i ++ ": " ++ print_frame n b) ::
      match n with
      | Some _ => []
      | None => match m with Some k => ["NO-RX MASK:              " ++ hex_str k; ""] | None => [""] end
      end
  | _ => []
  end.

Ltac sapp := repeat rewrite sapp_assoc; repeat rewrite sapp_nil.

Lemma out_text : forall x, event_stdout x = unlines (out_lines x).
Proof. intros [n b m|n|f b|b m|i b n m|i b|i b ok|i b n|i b n m]; cbn [event_stdout out_lines unlines]; auto; try destruct m; try destruct n; cbn [unlines]; sapp; auto. Qed.

Lemma err_text : forall x, event_stderr x = unlines (err_lines x).
Proof. intros [n b m|n|f b|b m|i b n m|i b|i b ok|i b n|i b n m]; cbn [event_stderr err_lines unlines]; auto; try destruct m; try destruct n; cbn [unlines]; sapp; auto. Qed.

(** *** Hexadecimal digits *)
Definition hex_digit (c : ascii) : Prop := exists k, (k < 16)%nat /\ c = digit_char (Z.of_nat k).

Lemma hex_chars : forall b, bytes_ok b -> Forall hex_digit (chars (hex_str b)).
Proof.
  intros b H. induction H as [|x b Hx H IH]; [constructor|]. cbn [hex_str chars].
  unfold byte_ok in Hx. constructor; [exists (Z.to_nat (x / 16))|constructor; [exists (Z.to_nat (x mod 16))|auto]]; (split; [lia|f_equal; lia]).
Qed.

Lemma hex_not : forall c k, (k < 16)%nat -> c = digit_char (Z.of_nat k) -> In c (chars "0123456789abcdef").
Proof. intros c k Hk ->. do 16 (destruct k as [|k]; [vm_compute; tauto|]). lia. Qed.

Lemma hex_one_line : forall b, bytes_ok b -> one_line (hex_str b).
Proof. intros b H. apply hex_chars in H. intros X. rewrite Forall_forall in H. destruct (H _ X) as [k [Hk E]]. apply (hex_not _ _ Hk) in E. vm_compute in E. repeat destruct E as [E|E]; try discriminate; auto. Qed.

Lemma after_hex : forall c p b, bytes_ok b -> ~ In c (chars "0123456789abcdef") -> after (String c p) (hex_str b) = None.
Proof.
  intros c p b H HC. apply hex_chars in H. destruct (hex_str b) as [|x s]; [reflexivity|]. cbn [after]. destruct (Ascii.eqb_spec c x) as [->|_]; [|auto].
  apply Forall_inv in H. destruct H as [k [Hk E]]. destruct HC. eapply hex_not; eauto.
Qed.

(** *** Columns *)
Lemma spaces_one_line : forall n, one_line (spaces n).
Proof. unfold one_line. induction n as [|n IH]; cbn [spaces chars]; [auto|]. intros [H|H]; [discriminate|auto]. Qed.

Lemma pad_one_line : forall n s, one_line s -> one_line (pad_left n s).
Proof. intros. apply one_line_app; auto using spaces_one_line. Qed.

Lemma const_one_line : forall s, forallb (fun c => negb (Ascii.eqb c newline)) (chars s) = true -> one_line s.
Proof. intros s H X. rewrite forallb_forall in H. apply H in X. rewrite Ascii.eqb_refl in X. discriminate. Qed.

Lemma trim_pad : forall n i t, plain_word i -> trim (pad_left n i ++ ":" ++ t) = i ++ ":" ++ t.
Proof.
  intros n i t [_ H]. unfold pad_left. rewrite sapp_assoc. induction (n - String.length i)%nat as [|k IH]; [|exact IH].
  cbn [spaces]. destruct i as [|c i]; [reflexivity|]. cbn [String.append trim]. destruct (Ascii.eqb_spec c space) as [->|_]; [|auto]. destruct H. left. auto.
Qed.

Lemma after_name : forall j i t, plain_word i -> plain_word j -> after (j ++ ": ") (i ++ ": " ++ t) = if String.eqb i j then Some t else None.
Proof.
  intros j i t [_ Hi] [_ Hj]. revert i Hi. induction j as [|d j IH]; intros i Hi.
  - destruct i as [|c i]; [reflexivity|]. cbn [String.append after String.eqb]. destruct (Ascii.eqb_spec ":" c) as [<-|_]; [|auto]. destruct i as [|c i]; [reflexivity|].
    cbn [String.append after]. destruct (Ascii.eqb_spec " " c) as [<-|_]; [|auto]. destruct Hi. right. left. auto.
  - destruct i as [|c i].
    + cbn [String.append after String.eqb]. destruct (Ascii.eqb_spec d ":") as [->|_]; [|auto]. destruct j as [|d j]; [reflexivity|]. cbn [String.append after].
      destruct (Ascii.eqb_spec d " ") as [->|_]; [|auto]. destruct Hj. right. left. auto.
    + cbn [String.append after String.eqb]. destruct (Ascii.eqb_spec d c) as [->|N].
      * rewrite Ascii.eqb_refl. apply IH; [intros X; apply Hj; right; auto|intros X; apply Hi; right; auto].
      * destruct (Ascii.eqb_spec c d) as [->|_]; [congruence|auto].
Qed.

Lemma after_app : forall k s, after k (k ++ s) = Some s.
Proof. induction k as [|c k IH]; intros s; [reflexivity|]. cbn [String.append after]. rewrite Ascii.eqb_refl. auto. Qed.

Lemma entry_line : forall k j n i t, plain_word i -> plain_word j -> entry k j (k ++ pad_left n i ++ ": " ++ t) = if String.eqb i j then Some t else None.
Proof. intros k j n i t Hi Hj. unfold entry. rewrite after_app. change (": " ++ t) with (":" ++ (" " ++ t)). rewrite trim_pad by auto. apply after_name; auto. Qed.

(** ** Events that can be printed *)

Definition mask_fine (m : option buf) : Prop := match m with Some k => bytes_ok k | None => True end.
Definition name_fine (n : option string) : Prop := match n with Some k => one_line k | None => True end.

Definition fine (x : event) : Prop :=
  match x with
  | EvName n b m => one_line n /\ bytes_ok b /\ mask_fine m
  | EvNoName n => one_line n
  | EvPcap _ _ => True
  | EvHex b m => bytes_ok b /\ mask_fine m
  | EvRxOk i b n m => plain_word i /\ bytes_ok b /\ name_fine n /\ mask_fine m
  | EvRxErr i b => plain_word i /\ bytes_ok b
  | EvSend _ _ _ => True
  | EvTx i b n => plain_word i /\ bytes_ok b /\ name_fine n
  | EvNoRx i b n m => plain_word i /\ bytes_ok b /\ name_fine n /\ mask_fine m
  end.

Lemma plain_one_line : forall i, plain_word i -> one_line i.
Proof. intros i [H _]. exact H. Qed.

Lemma on_plain : forall cs i c, printable cs -> In c (commands_on i cs) -> plain_word i /\ name_fine (c_name c) /\ In c cs.
Proof.
  intros cs i c HP Hc. pose proof Hc as H. unfold commands_on in H. apply filter_In in H. destruct H as [H1 H2]. apply andb_prop in H2. destruct H2 as [H2 H3]. destruct (HP c H1) as [P1 P2]. split; [|split].
  - unfold on_if in H3. specialize (P1 H2). unfold interface_of in P1. destruct (c_arg0 c); [|discriminate]. apply String.eqb_eq in H3. subst. auto.
  - unfold name_fine. destruct (c_name c); auto.
  - auto.
Qed.

Lemma iface_plain : forall cs i, printable cs -> In i (interfaces cs) -> plain_word i.
Proof.
  intros cs i HP H. unfold interfaces in H. assert (K : forall l x, In x (distinct l) -> In x l).
  { induction l as [|y l IH]; intros x Hx; [destruct Hx|]. destruct Hx as [<-|Hx]; [left; auto|]. apply filter_In in Hx. right. apply IH. tauto. }
  apply K in H. apply in_map_iff in H. destruct H as [c [<- H]]. apply filter_In in H. destruct H as [H1 H2]. apply (HP c H1). auto.
Qed.

Lemma stems_fine : forall ws e cs r ev, runs ws e cs r ev -> of_bytes (e_rounds e) -> printable cs -> Forall fine ev.
Proof.
  intros ws e cs r ev HR HB HP. pose proof (run_stems _ _ _ _ _ HR HB) as H. pose proof (run_masks _ _ _ _ _ HR) as HM. destruct (run_ready _ _ _ _ _ HR) as [HC _]. rewrite Forall_forall in HC.
  assert (KM : forall c, In c cs -> mask_fine (c_mask c)) by (intros c Hc; unfold mask_fine; destruct (c_mask c) eqn:E; eauto).
  assert (KB : forall c b, In c cs -> c_buf c = Some b -> bytes_ok b) by (intros c b Hc Hb; apply is_byte_bytes; apply (y_bytes _ (HC c Hc) b Hb)).
  eapply Forall_impl; [|exact H]. intros x Hx. destruct x as [n b m|n|f b|b m|i b n m|i b|i b ok|i b n|i b n m]; cbn [stems fine] in *; auto.
  - destruct Hx as [c [H1 [_ [H2 [H3 H4]]]]]. subst m. split; [apply (HP c H1); auto|]. split; [eauto|auto].
  - destruct Hx.
  - destruct Hx as [c [H1 [H2 ->]]]. split; [eauto|]. specialize (KM c H1). destruct (c_mask c); cbn in *; auto. apply forall_firstn; auto.
  - destruct Hx as [Hb [c [H1 [H2 [H3 _]]]]]. destruct (on_plain _ _ _ HP H1) as [P1 [P2 P3]]. subst. auto.
  - destruct Hx as [Hb Hi]. split; [eapply iface_plain; eauto|auto].
  - destruct Hx as [c [H1 [H2 H3]]]. unfold transmissions in H1. apply filter_In in H1. destruct H1 as [H1 _]. destruct (on_plain _ _ _ HP H1) as [P1 [P2 P3]]. subst. split; [auto|]. split; [eauto|auto].
  - destruct Hx as [c [H1 [H2 [H3 H4]]]]. unfold expectations in H1. apply filter_In in H1. destruct H1 as [H1 _]. destruct (on_plain _ _ _ HP H1) as [P1 [P2 P3]]. subst. split; [auto|]. split; [eauto|auto].
Qed.

Lemma frame_one_line : forall n b, name_fine n -> bytes_ok b -> one_line (print_frame n b).
Proof. intros [n|] b Hn Hb; cbn [print_frame]; [apply one_line_app; [apply const_one_line; reflexivity|exact Hn]|apply hex_one_line; auto]. Qed.

Ltac one :=
  match goal with
  | |- one_line (hex_str _) => apply hex_one_line; assumption
  | |- one_line (print_frame _ _) => apply frame_one_line; assumption
  | |- one_line (pad_left _ _) => apply pad_one_line; first [assumption|apply plain_one_line; assumption]
  | |- one_line (_ ++ _) => apply one_line_app; [one|one]
  | |- one_line _ => first [assumption|apply const_one_line; reflexivity]
  end.

Lemma out_one_line : forall x, fine x -> Forall one_line (out_lines x).
Proof.
  intros [n b m|n|f b|b m|i b n m|i b|i b ok|i b n|i b n m] H; cbn [fine out_lines] in *; try constructor.
  - destruct H as [H1 [H2 H3]]. one.
  - destruct H as [H1 [H2 H3]]. destruct m; repeat constructor; cbn in H3; one.
  - destruct H as [H1 H2]. destruct m; repeat constructor; cbn in H2; one.
  - destruct H as [H1 [H2 [H3 H4]]]. one.
  - destruct H as [H1 [H2 [H3 H4]]]. destruct n, m; repeat constructor; cbn in H4; try one.
  - destruct H as [H1 [H2 H3]]. one.
  - constructor.
Qed.

Lemma err_one_line : forall x, fine x -> Forall one_line (err_lines x).
Proof.
  intros [n b m|n|f b|b m|i b n m|i b|i b ok|i b n|i b n m] H; cbn [fine err_lines] in *; try constructor.
  - one.
  - constructor.
  - destruct H as [H1 H2]. one.
  - constructor.
  - destruct H as [H1 [H2 [H3 H4]]]. one.
  - destruct H as [H1 [H2 [H3 H4]]]. destruct n, m; repeat constructor; cbn in H4; try one.
Qed.

Lemma stdout_lines : forall ev, Forall fine ev -> lines (stdout ev) = flat_map out_lines ev.
Proof. intros ev H. apply lines_texts. eapply Forall_impl; [|exact H]. intros x Hx. split; [apply out_text|apply out_one_line; auto]. Qed.

Lemma stderr_lines : forall ev, Forall fine ev -> lines (stderr ev) = flat_map err_lines ev.
Proof. intros ev H. apply lines_texts. eapply Forall_impl; [|exact H]. intros x Hx. split; [apply err_text|apply err_one_line; auto]. Qed.

(** ** Entries *)

Definition pick (k j : string) (l : string) : list string := match entry k j l with Some r => [r] | None => [] end.

Lemma flat_flat : forall A B C (f : A -> list B) (g : B -> list C) l, flat_map g (flat_map f l) = flat_map (fun x => flat_map g (f x)) l.
Proof. induction l as [|x l IH]; [auto|]. cbn [flat_map]. rewrite flat_map_app, IH. auto. Qed.

Lemma flat_ext : forall A B (f g : A -> list B) (P : A -> Prop) l, Forall P l -> (forall x, P x -> f x = g x) -> flat_map f l = flat_map g l.
Proof. intros A B f g P l H E. induction H as [|x l H1 H IH]; [auto|]. cbn [flat_map]. rewrite (E x H1), IH. auto. Qed.

Lemma pick_line : forall k j n i t, plain_word i -> plain_word j -> pick k j (k ++ pad_left n i ++ ": " ++ t) = if String.eqb i j then [t] else [].
Proof. intros. unfold pick. rewrite entry_line by auto. destruct (String.eqb i j); auto. Qed.

Lemma pick_hex : forall c k j b, bytes_ok b -> ~ In c (chars "0123456789abcdef") -> pick (String c k) j (hex_str b) = [].
Proof. intros c k j b Hb Hc. unfold pick, entry. rewrite after_hex by auto. auto. Qed.

Ltac nohex := vm_compute; intuition discriminate.

Lemma pick_rxok : forall j x, plain_word j -> fine x -> flat_map (pick "RX-OK  " j) (out_lines x) = match x with EvRxOk i b n _ => if String.eqb i j then [print_frame n b] else [] | _ => [] end.
Proof.
  intros j [n b m|n|f b|b m|i b n m|i b|i b ok|i b n|i b n m] Hj H; cbn [fine out_lines flat_map] in *; auto.
  - destruct m; reflexivity.
  - destruct H as [H1 H2]. destruct m; [reflexivity|]. cbn [flat_map]. rewrite pick_hex; [auto|auto|nohex].
  - destruct H as [H1 _]. rewrite pick_line by auto. destruct n, m; cbn [flat_map]; try rewrite app_nil_r; auto.
Qed.

Lemma pick_tx : forall j x, plain_word j -> fine x -> flat_map (pick "TX     " j) (out_lines x) = match x with EvTx i b n => if String.eqb i j then [print_frame n b] else [] | _ => [] end.
Proof.
  intros j [n b m|n|f b|b m|i b n m|i b|i b ok|i b n|i b n m] Hj H; cbn [fine out_lines flat_map] in *; auto.
  - destruct m; reflexivity.
  - destruct H as [H1 H2]. destruct m; [reflexivity|]. cbn [flat_map]. rewrite pick_hex; [auto|auto|nohex].
  - destruct n, m; reflexivity.
  - destruct H as [H1 _]. rewrite pick_line by auto. rewrite app_nil_r. auto.
Qed.

Lemma pick_err : forall j x, plain_word j -> fine x -> flat_map (pick "RX-ERR " j) (err_lines x) = match x with EvRxErr i b => if String.eqb i j then [hex_str b] else [] | _ => [] end.
Proof.
  intros j [n b m|n|f b|b m|i b n m|i b|i b ok|i b n|i b n m] Hj H; cbn [fine err_lines flat_map] in *; auto.
  - destruct H as [H1 _]. rewrite pick_line by auto. rewrite app_nil_r. auto.
  - destruct n, m; reflexivity.
Qed.

Lemma pick_norx : forall j x, plain_word j -> fine x -> flat_map (pick "NO-RX  " j) (err_lines x) = match x with EvNoRx i b n _ => if String.eqb i j then [print_frame n b] else [] | _ => [] end.
Proof.
  intros j [n b m|n|f b|b m|i b n m|i b|i b ok|i b n|i b n m] Hj H; cbn [fine err_lines flat_map] in *; auto.
  destruct H as [H1 _]. rewrite pick_line by auto. destruct n, m; cbn [flat_map]; try rewrite app_nil_r; auto.
Qed.

Lemma hex_is_text : forall b, bytes_ok b -> hex_text b (hex_str b).
Proof. intros b H. split; [apply hex_str_dump; auto|]. clear H. induction b as [|x b IH]; [auto|]. cbn [hex_str String.length length]. lia. Qed.

Lemma frame_shown : forall n b, bytes_ok b -> shown (n, b) (print_frame n b).
Proof. intros [n|] b H; cbn [print_frame]; constructor. apply hex_is_text; auto. Qed.

Lemma forall2_flat : forall A B C (R : A -> B -> Prop) (f : C -> list A) (g : C -> list B) (P : C -> Prop) l, Forall P l -> (forall x, P x -> Forall2 R (f x) (g x)) -> Forall2 R (flat_map f l) (flat_map g l).
Proof. intros A B C R f g P l H E. induction H as [|x l H1 H IH]; [constructor|]. cbn [flat_map]. apply Forall2_app; auto. Qed.

Lemma report_entries : forall ws e cs r ev ifn, runs ws e cs r ev -> of_bytes (e_rounds e) -> printable cs -> plain_word ifn ->
  Forall2 shown (accepted ifn ev) (entries "RX-OK  " ifn (stdout ev)) /\
  Forall2 shown (transmitted ifn ev) (entries "TX     " ifn (stdout ev)) /\
  Forall2 hex_text (unexpected ifn ev) (entries "RX-ERR " ifn (stderr ev)) /\
  Forall2 shown (missed ifn ev) (entries "NO-RX  " ifn (stderr ev)).
Proof.
  intros ws e cs r ev ifn HR HB HP Hi. pose proof (stems_fine _ _ _ _ _ HR HB HP) as HF. unfold entries. rewrite stdout_lines, stderr_lines by auto. rewrite !flat_flat.
  split; [|split; [|split]].
  - unfold accepted. eapply forall2_flat; [exact HF|]. intros x Hx. change (fun l => match entry "RX-OK  " ifn l with Some r => [r] | None => [] end) with (pick "RX-OK  " ifn). rewrite pick_rxok by auto.
    destruct x; try constructor. destruct (String.eqb ifn0 ifn); constructor; [|constructor]. apply frame_shown. apply Hx.
  - unfold transmitted. eapply forall2_flat; [exact HF|]. intros x Hx. change (fun l => match entry "TX     " ifn l with Some r => [r] | None => [] end) with (pick "TX     " ifn). rewrite pick_tx by auto.
    destruct x; try constructor. destruct (String.eqb ifn0 ifn); constructor; [|constructor]. apply frame_shown. apply Hx.
  - assert (E : unexpected ifn ev = flat_map (fun x => match x with EvRxErr i b => if String.eqb i ifn then [b] else [] | _ => [] end) ev).
    { unfold unexpected, receptions. clear. induction ev as [|x ev IH]; [auto|]. cbn [flat_map]. destruct x; try exact IH; destruct (String.eqb ifn0 ifn); cbn [app filter map fst snd negb]; try exact IH; f_equal; exact IH. }
    rewrite E. eapply forall2_flat; [exact HF|]. intros x Hx. change (fun l => match entry "RX-ERR " ifn l with Some r => [r] | None => [] end) with (pick "RX-ERR " ifn). rewrite pick_err by auto.
    destruct x; try constructor. destruct (String.eqb ifn0 ifn); constructor; [|constructor]. apply hex_is_text. apply Hx.
  - unfold missed. eapply forall2_flat; [exact HF|]. intros x Hx. change (fun l => match entry "NO-RX  " ifn l with Some r => [r] | None => [] end) with (pick "NO-RX  " ifn). rewrite pick_norx by auto.
    destruct x; try constructor. destruct (String.eqb ifn0 ifn); constructor; [|constructor]. apply frame_shown. apply Hx.
Qed.

(** What is reported: the frames of C41 and C46, each for a command. *)
Lemma report_commands : forall ws e cs r ev ifn, runs ws e cs r ev -> of_bytes (e_rounds e) ->
  (map snd (accepted ifn ev) = map snd (filter fst (receptions ifn ev)) /\ forall n b, In (n, b) (accepted ifn ev) -> exists c, In c (commands_on ifn cs) /\ c_name c = n /\ accepts c b) /\
  (map snd (transmitted ifn ev) = reported_tx ifn ev /\ forall n b, In (n, b) (transmitted ifn ev) -> exists c, In c (transmissions ifn cs) /\ c_name c = n /\ c_buf c = Some b) /\
  (map snd (missed ifn ev) = reported_missing ifn ev /\ forall n b, In (n, b) (missed ifn ev) -> exists c, In c (expectations ifn cs) /\ c_name c = n /\ c_buf c = Some b).
Proof.
  intros ws e cs r ev ifn HR HB. pose proof (run_stems _ _ _ _ _ HR HB) as HS. rewrite Forall_forall in HS. split; [|split]; split.
  - unfold accepted, receptions. clear. induction ev as [|x ev IH]; [auto|]. cbn [flat_map]. destruct x; try exact IH; destruct (String.eqb ifn0 ifn); cbn [app filter map fst snd negb]; try exact IH; f_equal; exact IH.
  - intros n b H. unfold accepted in H. apply in_flat_map in H. destruct H as [x [H1 H2]]. specialize (HS _ H1). destruct x; try destruct H2. destruct (String.eqb_spec ifn0 ifn) as [->|]; [|destruct H2]. destruct H2 as [H2|[]].
    assert (name = n) by congruence. assert (b0 = b) by congruence. subst. destruct HS as [_ [c [C1 [C2 [_ C3]]]]]. exists c. auto.
  - unfold transmitted, reported_tx. clear. induction ev as [|x ev IH]; [auto|]. cbn [flat_map]. destruct x; try exact IH; destruct (String.eqb ifn0 ifn); cbn [app filter map fst snd negb]; try exact IH; f_equal; exact IH.
  - intros n b H. unfold transmitted in H. apply in_flat_map in H. destruct H as [x [H1 H2]]. specialize (HS _ H1). destruct x; try destruct H2. destruct (String.eqb_spec ifn0 ifn) as [->|]; [|destruct H2]. destruct H2 as [H2|[]].
    assert (name = n) by congruence. assert (b0 = b) by congruence. subst. destruct HS as [c [C1 [C2 C3]]]. exists c. auto.
  - unfold missed, reported_missing. clear. induction ev as [|x ev IH]; [auto|]. cbn [flat_map]. destruct x; try exact IH; destruct (String.eqb ifn0 ifn); cbn [app filter map fst snd negb]; try exact IH; f_equal; exact IH.
  - intros n b H. unfold missed in H. apply in_flat_map in H. destruct H as [x [H1 H2]]. specialize (HS _ H1). destruct x; try destruct H2. destruct (String.eqb_spec ifn0 ifn) as [->|]; [|destruct H2]. destruct H2 as [H2|[]].
    assert (name = n) by congruence. assert (b0 = b) by congruence. subst. destruct HS as [c [C1 [C2 [C3 _]]]]. exists c. auto.
Qed.

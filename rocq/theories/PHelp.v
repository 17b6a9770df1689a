(** Help and diagnostics: lemmas for C74, C75, C76. *)

From Verif Require Import PTextIp PTextNum PTextHex Frame PBits PSer SpecParse PParse SpecFrame PAssign PField Exec SpecExec PCmd Report SpecReport SpecHelp PReport SpecLayout SpecWhole.
Local Open Scope string_scope.

(** ** The functions that print do the same as those that do not *)

Definition same {A} (a : out (A * string)) (b : out A) : Prop :=
  match a with Ret (x, _) => b = Ret x | Crash c => b = Crash c end.

Lemma same_bind : forall A B (a : out A) (f : A -> out (B * string)) (g : A -> out B),
  (forall x, same (f x) (g x)) -> same (x <- a;; f x) (x <- a;; g x).
Proof. intros. destruct a; cbn [bind]; [auto|reflexivity]. Qed.

Lemma same_says : forall A B (a : out (A * string)) (b : out A) (f : A * string -> out (B * string)) (g : A -> out B),
  same a b -> (forall x s, same (f (x, s)) (g x)) -> same (x <- a;; f x) (x <- b;; g x).
Proof. intros A B a b f g H1 H2. destruct a as [[x s]|c]; cbn [same] in H1; subst; cbn [bind]; [auto|reflexivity]. Qed.

Lemma same_text : forall A (a : out (A * string)) (b : out A) t, same a b -> same ('(x, s) <- a;; Ret (x, t ++ s)) b.
Proof. intros A a b t H. destruct a as [[x s]|c]; exact H. Qed.

Lemma hpf_same : forall fuel ws i h pad mask, same (hpf_says fuel ws i h pad mask) (hpf_loop fuel ws i h pad mask).
Proof.
  induction fuel as [|fuel IH]; intros ws i h pad mask; [reflexivity|]. cbn [hpf_says hpf_loop]. destruct ws as [|w r]; [reflexivity|].
  destruct (String.eqb w "help"); [reflexivity|]. destruct (is_ign w && (i =? 0)%nat); [apply IH|]. destruct (find_field h w) as [f|]; [|reflexivity].
  destruct r as [|v r2]; [reflexivity|]. destruct (is_ign v); [apply IH|]. destruct (String.eqb v "help"); [reflexivity|]. destruct (is_multi (f_parser f)).
  - apply same_bind. intros [h1 cnt]. destruct ((0 <? cnt)%Z && (cnt <=? zlen (v :: r2))%Z); [|reflexivity]. apply same_text. apply IH.
  - apply same_bind. intros [h1 o]. apply same_text. apply IH.
Qed.

Lemma hdr_same : forall ws h pad mask, same (parse_hdr_says ws h pad mask) (parse_hdr ws h pad mask).
Proof.
  intros ws h pad mask. unfold parse_hdr_says. destruct (h_parser h) eqn:E; [unfold parse_hdr; rewrite E; apply hpf_same| | |unfold parse_hdr; rewrite E; reflexivity]; destruct (parse_hdr ws h pad mask); reflexivity.
Qed.

Lemma frame_loop_same : forall fuel ws i f, same (argc_frame_loop_says fuel ws i f) (argc_frame_loop fuel ws i f).
Proof.
  induction fuel as [|fuel IH]; intros ws i f; [reflexivity|]. cbn [argc_frame_loop_says argc_frame_loop]. destruct ws as [|w r]; [reflexivity|].
  destruct (String.eqb w "help"); [reflexivity|]. destruct (find_tmpl w) as [t|]; [|reflexivity]. destruct (FRAME_STACK_MAX <=? zlen (fr_stack f))%Z; [reflexivity|].
  eapply same_says; [apply hdr_same|]. intros p s. destruct p as [|n h pad mask]; [reflexivity|]. apply same_text. apply IH.
Qed.

Lemma frame_same : forall ws, same (argc_frame_says ws) (argc_frame ws).
Proof. intros ws. unfold argc_frame_says, argc_frame. destruct (FRAME_STACK_MAX <? zlen ws)%Z; [reflexivity|]. apply frame_loop_same. Qed.

Lemma finish_same : forall ct nm a rep i ws, same (finish_cmd_says ct nm a rep i ws) (finish_cmd ct nm a rep i ws).
Proof.
  intros. unfold finish_cmd_says, finish_cmd. eapply same_says; [apply frame_same|]. intros o s. destruct o as [[n f]|]; [|reflexivity]. destruct n; [destruct ct; reflexivity|].
  apply same_bind. intros [f1 b]. apply same_bind. intros m. reflexivity.
Qed.

Lemma cmd_frame_same : forall ct nm a rep i ws, same (cmd_frame_says ct nm a rep i ws) (cmd_frame ct nm a rep i ws).
Proof. intros. unfold cmd_frame_says, cmd_frame. destruct ws as [|w [|x ws]]; try apply finish_same. destruct (_ && _); [reflexivity|apply finish_same]. Qed.

Lemma cmd_same : forall ws, same (argc_cmd_says ws) (argc_cmd ws).
Proof.
  intros ws. unfold argc_cmd_says, argc_cmd. destruct ws as [|w r]; [reflexivity|]. destruct (cmd_word w) as [ct|]; [|destruct (String.eqb w "help"); reflexivity].
  destruct r as [|a r2]; [reflexivity|]. destruct ct; try apply cmd_frame_same. destruct r2 as [|x r3]; [reflexivity|]. destruct (_ || _); [|apply cmd_frame_same]. destruct r3; [reflexivity|apply cmd_frame_same].
Qed.

Lemma cmds_same : forall slots ws i k n, same (argc_cmds_says slots ws i k n) (argc_cmds_loop slots ws).
Proof.
  induction slots as [|slots IH]; intros ws i k n; cbn [argc_cmds_says argc_cmds_loop]; (destruct ws as [|w ws]; [reflexivity|]); [reflexivity|].
  eapply same_says; [apply cmd_same|]. intros r s. destruct r as [| |m c]; try reflexivity. eapply same_says; [apply IH|]. intros o s2. reflexivity.
Qed.

Lemma parse_same : forall ws, same (parse_cmds_says ws) (parse_cmds ws).
Proof. intros. apply cmds_same. Qed.

(** What the program prints: the diagnostics of the parser, then the report of the run. *)
Lemma main_text : forall version args e t caps ws s r ev, getopt args = ORun t caps ws ->
  (exists o, parse_cmds_says ws = Ret (o, s)) -> argc_cmds ws e = Ret (r, ev) -> main_says version args e = Ret (r, s ++ stdout ev, stderr ev).
Proof.
  intros version args e t caps ws s r ev HG [o HS] HA. unfold main_says. rewrite HG, HS. cbn [bind]. pose proof (parse_same ws) as K. rewrite HS in K. cbn [same] in K. unfold argc_cmds in HA. rewrite K in HA. cbn [bind] in HA.
  destruct o as [cs|]; [rewrite HA; reflexivity|]. apply ret_inj in HA. apply pair_inj in HA. destruct HA as [<- <-]. cbn. rewrite sapp_nil. auto.
Qed.

Lemma main_runs : forall version args e r o1 o2, main_says version args e = Ret (r, o1, o2) ->
  match getopt args with
  | OVersion _ => r = 0%Z /\ o1 = "ef version: " ++ version ++ nl /\ o2 = ""
  | OUsage _ => r = (-1)%Z /\ o1 = usage_text /\ o2 = ""
  | ORun _ _ ws => exists ev s o, argc_cmds ws e = Ret (r, ev) /\ parse_cmds_says ws = Ret (o, s) /\ o1 = s ++ stdout ev /\ o2 = stderr ev
  end.
Proof.
  intros version args e r o1 o2 H. unfold main_says in H. destruct (getopt args) as [caps|caps|t caps ws].
  - apply ret_inj in H. split; [congruence|]. split; congruence.
  - apply ret_inj in H. split; [congruence|]. split; congruence.
  - destruct (parse_cmds_says ws) as [[o s]|c] eqn:HS; [|discriminate]. cbn [bind] in H. pose proof (parse_same ws) as K. rewrite HS in K. cbn [same] in K. unfold argc_cmds. rewrite K. cbn [bind].
    destruct o as [cs|].
    + destruct (exec_cmds cs e) as [[r' ev]|] eqn:E; [|discriminate]. cbn [bind] in H. apply ret_inj in H. exists ev, s, (Some cs). repeat split; congruence.
    + apply ret_inj in H. exists [], s, None. assert (s ++ "" = s) by apply sapp_nil. change (stdout []) with "". change (stderr []) with "". repeat split; congruence.
Qed.

(** ** The lists of the help *)

Definition a_header_word (w : string) : Prop := w <> "help" /\ argc_frame [w] <> Ret (Some (0%nat, empty_frame)).

Lemma headers_listed : forall w, In w (listed_headers headers_help) <-> a_header_word w.
Proof.
  intros w. assert (EL : listed_headers headers_help = map h_name hdr_tmpls) by (vm_compute; reflexivity). rewrite EL. split.
  - intros H. assert (KN : forallb (fun t => negb (String.eqb (h_name t) "help") && is_some (find_tmpl (h_name t))) hdr_tmpls = true) by (vm_compute; reflexivity).
    rewrite forallb_forall in KN. apply in_map_iff in H. destruct H as [t [<- Ht]]. specialize (KN _ Ht). apply andb_true_iff in KN. destruct KN as [K1 K2].
    split; [intros E; rewrite E in K1; discriminate|]. unfold argc_frame. change (FRAME_STACK_MAX <? zlen [h_name t])%Z with false. cbn [length argc_frame_loop]. rewrite (proj1 (negb_true_iff _) K1).
    destruct (find_tmpl (h_name t)) as [t'|]; [|discriminate]. change (FRAME_STACK_MAX <=? zlen (fr_stack empty_frame))%Z with false.
    destruct (parse_hdr [] t' _ _) as [p|]; cbn [bind]; [|discriminate]. destruct p as [|n h pad mask]; [discriminate|]. cbv iota. replace (skipn n (@nil string)) with (@nil string) by (destruct n; reflexivity). intros H. apply ret_inj in H. apply some_inj in H. apply pair_inj in H. destruct H as [H _]. lia.
  - intros [HN H]. destruct (in_dec string_dec w (map h_name hdr_tmpls)) as [|HI]; [auto|]. exfalso. apply H. unfold argc_frame. change (FRAME_STACK_MAX <? zlen [w])%Z with false. cbn [length argc_frame_loop].
    destruct (String.eqb_spec w "help"); [congruence|]. destruct (find_tmpl w) as [t|] eqn:E; [|reflexivity]. exfalso. apply HI. unfold find_tmpl in E. apply find_some in E. destruct E as [E1 E2]. apply String.eqb_eq in E2. subst w. apply in_map. auto.
Qed.

Lemma commands_listed : forall w, In w (listed_commands usage_text) <-> is_some (cmd_word w) = true.
Proof.
  intros w. assert (EL : listed_commands usage_text = ["tx"; "rx"; "hex"; "name"; "pcap"]) by (vm_compute; reflexivity). rewrite EL. unfold cmd_word. split.
  - cbn [In]. intuition; subst; reflexivity.
  - intros H. cbn [In]. destruct (String.eqb_spec w "name"); [auto 6|]. destruct (String.eqb_spec w "pcap"); [auto 6|]. destruct (String.eqb_spec w "hex"); [auto 6|]. destruct (String.eqb_spec w "rx"); [auto 6|]. destruct (String.eqb_spec w "tx"); [auto 6|]. discriminate.
Qed.

Lemma syntax_listed : syntax_lines (lines usage_text) = listed_commands usage_text.
Proof. vm_compute. reflexivity. Qed.

Lemma examples_accepted : Forall (fun ws => exists cs, cs <> [] /\ parse_cmds_says ws = Ret (Some cs, "")) (examples usage_text).
Proof.
  assert (K : forallb (fun ws => match parse_cmds_says ws with Ret (Some (_ :: _), EmptyString) => true | _ => false end) (examples usage_text) = true) by (vm_compute; reflexivity).
  apply Forall_forall. intros ws H. rewrite forallb_forall in K. specialize (K ws H). cbv beta in K. destruct (parse_cmds_says ws) as [[[cs|] s]|]; try discriminate. destruct cs as [|c cs]; [discriminate|]. destruct s; [|discriminate]. exists (c :: cs). split; [discriminate|auto].
Qed.

(** "help" behind a header prints its help. *)
Lemma hdr_help_shown : forall t, In t hdr_tmpls -> h_parser t = HP_fields -> argc_frame_says [h_name t; "help"] = Ret (None, hdr_help [t] 0 true).
Proof.
  intros t Ht HP. assert (KN : forallb (fun t => negb (String.eqb (h_name t) "help")) hdr_tmpls = true) by (vm_compute; reflexivity).
  rewrite forallb_forall in KN. specialize (KN _ Ht). apply negb_true_iff in KN. unfold argc_frame_says. change (FRAME_STACK_MAX <? zlen [h_name t; "help"])%Z with false. cbn [length argc_frame_loop_says]. rewrite KN.
  rewrite (find_tmpl_name t Ht). change (FRAME_STACK_MAX <=? zlen (fr_stack empty_frame))%Z with false. unfold parse_hdr_says. rewrite HP. reflexivity.
Qed.

Definition shows (t : hdr) (f : field) : string * string * string := (f_name f, decimal (f_off f), decimal (f_width f)).

Lemma rows_shown : forall t, In t hdr_tmpls -> h_parser t = HP_fields -> listed_fields (hdr_help [t] 0 true) = map (shows t) (h_fields t).
Proof.
  intros t Ht HP. assert (KN : forallb (fun t => match h_parser t with HP_fields => if list_eq_dec (fun x y : string * string * string => ltac:(repeat decide equality)) (listed_fields (hdr_help [t] 0 true)) (map (shows t) (h_fields t)) then true else false | _ => true end) hdr_tmpls = true) by (vm_compute; reflexivity).
  rewrite forallb_forall in KN. specialize (KN _ Ht). rewrite HP in KN. destruct (list_eq_dec _ _ _); [auto|discriminate].
Qed.

Lemma find_field_none : forall t w, find_field t w = None <-> ~ In w (map f_name (h_fields t)).
Proof.
  intros t w. unfold find_field. split.
  - intros H HI. apply in_map_iff in HI. destruct HI as [f [<- Hf]]. apply (find_none _ _ H) in Hf. rewrite String.eqb_refl in Hf. discriminate.
  - intros H. destruct (find _ _) as [f|] eqn:E; [|auto]. exfalso. apply find_some in E. destruct E as [E1 E2]. apply String.eqb_eq in E2. apply H. apply in_map_iff. exists f. auto.
Qed.

Lemma no_words : forall t pad mask p s, parse_hdr_says [] t pad mask = Ret (p, s) -> s = "".
Proof. intros t pad mask p s H. unfold parse_hdr_says in H. destruct (h_parser t) eqn:E; [|unfold parse_hdr in H; rewrite E in H|unfold parse_hdr in H; rewrite E in H|discriminate]; cbn in H; congruence. Qed.

Lemma fields_listed : forall t w, In t hdr_tmpls -> h_parser t = HP_fields -> w <> "help" -> ~ ignore_word w ->
  ((exists o d, In (w, o, d) (listed_fields (hdr_help [t] 0 true))) <-> argc_frame_says [h_name t; w] = Ret (None, "ERROR: Missing argument to " ++ w ++ nl)).
Proof.
  intros t w Ht HP HH HI. rewrite rows_shown by auto. assert (KN : forallb (fun t => negb (String.eqb (h_name t) "help")) hdr_tmpls = true) by (vm_compute; reflexivity).
  rewrite forallb_forall in KN. specialize (KN _ Ht). apply negb_true_iff in KN. assert (EI : is_ign w = false).
  { unfold is_ign. destruct (String.eqb_spec w "ign"); [exfalso; apply HI; left; auto|]. destruct (String.eqb_spec w "ignore"); [exfalso; apply HI; right; auto|auto]. }
  assert (EH : String.eqb w "help" = false) by (destruct (String.eqb_spec w "help"); congruence).
  unfold argc_frame_says. change (FRAME_STACK_MAX <? zlen [h_name t; w])%Z with false. cbn [length argc_frame_loop_says]. rewrite KN, (find_tmpl_name t Ht).
  change (FRAME_STACK_MAX <=? zlen (fr_stack empty_frame))%Z with false. unfold parse_hdr_says at 1. rewrite HP. unfold parse_fields_says. cbn [length hpf_says]. rewrite EH, EI. cbn [andb].
  destruct (find_field t w) as [f|] eqn:EF.
  - split; [reflexivity|]. intros _. exists (decimal (f_off f)), (decimal (f_width f)). apply in_map_iff. unfold find_field in EF. apply find_some in EF. destruct EF as [E1 E2]. apply String.eqb_eq in E2. exists f. unfold shows. split; [congruence|auto].
  - split; intros H; exfalso.
    + apply find_field_none in EF. apply EF. destruct H as [o [d H]]. apply in_map_iff in H. destruct H as [f [H1 H2]]. unfold shows in H1. apply in_map_iff. exists f. split; [congruence|auto].
    + cbn [bind skipn] in H. rewrite EH in H. destruct (find_tmpl w) as [t'|]; [|discriminate]. cbn [fr_stack empty_frame app] in H. change (FRAME_STACK_MAX <=? zlen [t])%Z with false in H. cbv iota in H.
      destruct (parse_hdr_says [] t' _ _) as [[p s]|] eqn:E; [|discriminate]. cbn [bind] in H. pose proof (no_words _ _ _ _ _ E) as ->. destruct p as [|n h pad mask]; [discriminate|].
      replace (skipn n (@nil string)) with (@nil string) in H by (destruct n; reflexivity). discriminate.
Qed.

(** The places in the help are those of the format. *)
Lemma format_rows : forall n m fld off w, In (n, m) formats -> fld <> "-" -> place m fld = Some (off, w) ->
  exists t, In t hdr_tmpls /\ h_name t = n /\ h_parser t = HP_fields /\
    find (fun r => String.eqb fld (fst (fst r))) (listed_fields (hdr_help [t] 0 true)) = Some (fld, decimal off, decimal w).
Proof.
  intros n m fld off w HM HF HP.
  assert (KN : forallb (fun p => match find_tmpl (fst p) with
    | Some t => match h_parser t with HP_fields => true | _ => false end &&
        forallb (fun q => String.eqb (fst q) "-" || match place (snd p) (fst q), find (fun r => String.eqb (fst q) (fst (fst r))) (listed_fields (hdr_help [t] 0 true)) with
          | Some (a, b), Some (x, y, z) => String.eqb x (fst q) && String.eqb y (decimal a) && String.eqb z (decimal b) | _, _ => false end) (snd p)
    | None => false end) formats = true) by (vm_compute; reflexivity).
  rewrite forallb_forall in KN. specialize (KN _ HM). cbn [fst snd] in KN. destruct (find_tmpl n) as [t|] eqn:ET; [|discriminate]. apply andb_true_iff in KN. destruct KN as [K1 K2].
  unfold find_tmpl in ET. apply find_some in ET. destruct ET as [T1 T2]. apply String.eqb_eq in T2. exists t. split; [auto|]. split; [auto|]. split; [destruct (h_parser t); auto; discriminate|].
  rewrite forallb_forall in K2. assert (HI : exists d, In (fld, d) m).
  { clear - HP. unfold place in HP. revert HP. generalize 0%Z. induction m as [|[a b] m IH]; intros z HP; [discriminate|]. cbn [place_from] in HP. destruct (String.eqb_spec a fld) as [->|]; [exists b; left; auto|]. destruct (IH _ HP) as [d Hd]. exists d. right. auto. }
  destruct HI as [d Hd]. specialize (K2 _ Hd). cbn [fst] in K2. destruct (String.eqb_spec fld "-"); [congruence|]. cbn [orb] in K2. rewrite HP in K2.
  destruct (find _ _) as [[[x y] z]|]; [|discriminate]. apply andb_true_iff in K2. destruct K2 as [K2 K3]. apply andb_true_iff in K2. destruct K2 as [K2 K4]. apply String.eqb_eq in K2, K3, K4. congruence.
Qed.

(** ** Diagnostics of values *)

Lemma hex_said : forall s, hex_says s <> "" -> (forall m, parse_var_bytes_hex s m = Ret None) /\ (forall n, parse_bytes_hex s n = Ret None).
Proof.
  intros s H. unfold hex_says in H. unfold parse_var_bytes_hex, parse_bytes_hex. destruct (nib_scan s 0 false false) as [[cnt others] align]. destruct (_ || _); [auto|]. destruct align; [auto|congruence].
Qed.

Lemma binary_said : forall s n, binary_says s <> "" -> parse_bytes_binary s n = Ret None.
Proof. intros s n H. unfold binary_says in H. unfold parse_bytes_binary. destruct (bin_scan s 0 false) as [cnt others]. destruct (_ || _); [auto|]. destruct (negb _); [auto|congruence]. Qed.

Lemma mac_said : forall s n, mac_line s mac_init = Some n -> parse_mac s = Ret None.
Proof.
  intros s n. unfold parse_mac. generalize mac_init. induction s as [|c s IH]; intros st H; cbn [mac_line mac_loop] in *.
  - cbn [bind]. destruct (1 <? mc_split_cnt st)%Z; [auto|]. destruct (6 <? mc_elem st)%Z; [auto|]. destruct (_ && _); [auto|discriminate].
  - destruct (mac_step c st) as [[st'|]|]; cbn [bind] in *; [auto|auto|discriminate].
Qed.

Lemma bytes_said : forall s n, bytes_says s n <> "" -> parse_bytes s n = Ret None.
Proof.
  intros s n H. unfold bytes_says in H. unfold parse_bytes. destruct (split_prefix s) as [pfx d]. cbv zeta in *. destruct (_ && (n <=? 8)%Z); [congruence|]. destruct (base_of pfx (flags_of d) =? 16)%Z; [apply hex_said; auto|].
  destruct (base_of pfx (flags_of d) =? 2)%Z; [apply binary_said; auto|]. destruct pfx; [congruence|]. destruct (_ && has_dot (flags_of d)); [destruct (inet_pton4 d); congruence|].
  destruct (_ && negb (has_dot (flags_of d)) && has_colon (flags_of d)); [destruct (mac_line d mac_init) as [k|] eqn:E; [apply (mac_said _ _ E)|congruence]|].
  destruct (_ && has_colon (flags_of d)); [destruct (inet_pton6 d); congruence|congruence].
Qed.

Lemma value_said : forall p h s n, value_says p s n <> "" -> run_parser p h s n = Ret (h, None).
Proof.
  intros p h s n H. unfold run_parser. destruct p; cbn [value_says] in H; try (rewrite bytes_said by auto; reflexivity).
  - unfold field_hex_says in H. unfold parse_field_hex. destruct (parse_var_bytes_hex s 0) as [[b|]|] eqn:E; cbn [bind]; [destruct (n <? zlen b)%Z; [auto|congruence]|auto|rewrite (proj1 (hex_said _ H)) in E; discriminate].
  - congruence.
  - unfold coap_parse_token. rewrite (proj1 (hex_said _ H)). reflexivity.
  - unfold profinet_data_parser. rewrite (proj1 (hex_said _ H)). reflexivity.
  - unfold opc_parse_uint16. rewrite bytes_said by auto. reflexivity.
Qed.

(** ** Values written like an address are reported *)

Lemma mac_silent : forall s, mac_line s mac_init = None -> parse_mac s <> Ret None.
Proof.
  intros s. unfold parse_mac. generalize mac_init. induction s as [|c s IH]; intros st H; cbn [mac_line mac_loop] in *.
  - cbn [bind]. destruct (1 <? mc_split_cnt st)%Z; [discriminate|]. destruct (6 <? mc_elem st)%Z; [discriminate|]. destruct ((6 <=? mc_elem st)%Z && (0 <? mc_split_cnt st)%Z); [discriminate|].
    cbv zeta. destruct (memmove_in _ _ _ _) as [m1|]; cbn [bind]; [|discriminate]. destruct (memset_in _ _ _ _); cbn [bind]; discriminate.
  - destruct (mac_step c st) as [[st'|]|]; cbn [bind] in *; [auto|discriminate|discriminate].
Qed.

Lemma hex_silent : forall s n, hex_says s = "" -> parse_bytes_hex s n <> Ret None.
Proof.
  intros s n H. unfold hex_says in H. unfold parse_bytes_hex. destruct (nib_scan s 0 false false) as [[cnt others] align]. destruct (_ || _); [discriminate|]. destruct align; [discriminate|]. destruct (nib_fill _ _ _ _); cbn [bind]; discriminate.
Qed.

Lemma existsb_chars : forall p s, str_existsb p s = existsb p (chars s).
Proof. induction s as [|c s IH]; [auto|]. cbn [str_existsb chars existsb]. rewrite IH. auto. Qed.

Lemma existsb_none : forall A (p : A -> bool) l, (forall x, In x l -> p x = false) -> existsb p l = false.
Proof. intros A p l H. destruct (existsb p l) eqn:E; [|auto]. apply existsb_exists in E. destruct E as [x [H1 H2]]. rewrite H in H2; auto. Qed.

Definition known_char (c : ascii) : bool := in_base2 c || in_base8 c || in_base10 c || in_base16 c || is_dot c || is_colon c.

Lemma hex_char_flags : forall c, hex_char c -> known_char c = true /\ is_dot c = false /\ is_colon c = false.
Proof.
  assert (K : forallb (fun c => known_char c && negb (is_dot c) && negb (is_colon c)) (chars "0123456789abcdefABCDEF") = true) by (vm_compute; reflexivity).
  intros c H. rewrite forallb_forall in K. specialize (K _ H). destruct (known_char c), (is_dot c), (is_colon c); try discriminate; auto.
Qed.

Lemma no_prefix : forall s ok, made_of ok s -> (forall c, ok c -> c <> "x"%char /\ c <> "o"%char) -> ~ with_0b s -> split_prefix s = (None, s).
Proof.
  intros s ok H HX HB. destruct s as [|a [|b r]]; [reflexivity|reflexivity|]. cbn [split_prefix]. destruct (Z.eqb_spec (code a) 48) as [E|]; [|auto]. assert (a = "0"%char) by (apply code_inj; exact E). subst a.
  assert (Hb : ok b). { unfold made_of in H. cbn [chars] in H. exact (Forall_inv (Forall_inv_tail H)). } destruct (HX _ Hb) as [X1 X2].
  destruct (Z.eqb_spec (code b) 120) as [E1|]; [exfalso; apply X1; apply code_inj; exact E1|]. destruct (Z.eqb_spec (code b) 111) as [E1|]; [exfalso; apply X2; apply code_inj; exact E1|].
  destruct (Z.eqb_spec (code b) 98) as [E1|]; [|auto]. exfalso. apply HB. exists r. assert (b = "b"%char) by (apply code_inj; exact E1). subst. reflexivity.
Qed.

Lemma others_none : forall s ok, made_of ok s -> (forall c, ok c -> known_char c = true) -> has_other (flags_of s) = false.
Proof. intros s ok H HK. cbn [flags_of has_other]. rewrite existsb_chars. apply existsb_none. intros c Hc. unfold made_of in H. rewrite Forall_forall in H. specialize (HK _ (H _ Hc)). unfold known_char in HK. rewrite HK. reflexivity. Qed.

Lemma with_colon : forall s, In ":"%char (chars s) -> has_colon (flags_of s) = true.
Proof. intros s H. cbn [flags_of has_colon]. rewrite existsb_chars. apply existsb_exists. exists ":"%char. auto. Qed.
Lemma with_dot : forall s, In "."%char (chars s) -> has_dot (flags_of s) = true.
Proof. intros s H. cbn [flags_of has_dot]. rewrite existsb_chars. apply existsb_exists. exists "."%char. auto. Qed.

Lemma not_x : forall c, hex_char c -> c <> "x"%char /\ c <> "o"%char.
Proof. intros c H. split; intros ->; revert H; unfold hex_char; cbn; intuition discriminate. Qed.

Lemma reported : forall n s, looks_right n s -> ~ with_0b s -> parse_bytes s n = Ret None -> bytes_says s n <> "".
Proof.
  intros n s HL HB HP HS. inversion HL; subst; clear HL.
  - assert (EP : split_prefix s = (None, s)) by (apply (no_prefix _ _ H); auto; intros c [Hc| ->]; [apply not_x; auto|split; discriminate]).
    assert (HO : has_other (flags_of s) = false) by (apply (others_none _ _ H); intros c [Hc| ->]; [apply (hex_char_flags _ Hc)|reflexivity]). unfold bytes_says, parse_bytes in *. rewrite EP in *. cbv zeta in *. pose proof (with_dot _ H0) as HD. assert (HC : has_colon (flags_of s) = false).
    { cbn [flags_of has_colon]. rewrite existsb_chars. apply existsb_none. intros c Hc. unfold made_of in H. rewrite Forall_forall in H. destruct (H _ Hc) as [Hx| ->]; [apply (hex_char_flags _ Hx)|reflexivity]. }
    unfold base_of in *. rewrite HD, HC, HO in *. cbn [negb andb Z.eqb] in *.
    destruct (inet_pton4 s); discriminate.
  - assert (EP : split_prefix s = (None, s)) by (apply (no_prefix _ _ H); auto; intros c [Hc| ->]; [apply not_x; auto|split; discriminate]).
    assert (HO : has_other (flags_of s) = false) by (apply (others_none _ _ H); intros c [Hc| ->]; [apply (hex_char_flags _ Hc)|reflexivity]). unfold bytes_says, parse_bytes in *. rewrite EP in *. cbv zeta in *. pose proof (with_colon _ H0) as HC. assert (HD : has_dot (flags_of s) = false).
    { cbn [flags_of has_dot]. rewrite existsb_chars. apply existsb_none. intros c Hc. unfold made_of in H. rewrite Forall_forall in H. destruct (H _ Hc) as [Hx| ->]; [apply (hex_char_flags _ Hx)|reflexivity]. }
    unfold base_of in *. rewrite HD, HC, HO in *. cbn [negb andb Z.eqb] in *.
    change (6 =? 6)%Z with true in *. cbn [andb] in *. destruct (mac_line s mac_init) eqn:E; [discriminate|]. apply (mac_silent _ E). auto.
  - assert (EP : split_prefix s = (None, s)) by (apply (no_prefix _ _ H); auto; intros c [Hc|[ -> | -> ]]; [apply not_x; auto|split; discriminate|split; discriminate]).
    assert (HO : has_other (flags_of s) = false) by (apply (others_none _ _ H); intros c [Hc|[ -> | -> ]]; [apply (hex_char_flags _ Hc)|reflexivity|reflexivity]). unfold bytes_says, parse_bytes in *. rewrite EP in *. cbv zeta in *. pose proof (with_colon _ H0) as HC. 
    unfold base_of in *. rewrite HC, HO in *. cbn [negb andb] in *. rewrite !andb_false_r in *. cbn [andb Z.eqb negb] in *.
    change (16 =? 16)%Z with true in *. cbn [andb] in *. destruct (inet_pton6 s); discriminate.
  - unfold bytes_says, parse_bytes in *. change (split_prefix ("0x" ++ s0)) with (Some P0x, s0) in *. cbv iota zeta in *. assert (HO : has_other (flags_of s0) = false) by (apply (others_none _ _ H0); intros c Hc; apply (hex_char_flags _ Hc)).
    assert (HC : has_colon (flags_of s0) = false). { cbn [flags_of has_colon]. rewrite existsb_chars. apply existsb_none. intros c Hc. unfold made_of in H0. rewrite Forall_forall in H0. apply (hex_char_flags _ (H0 _ Hc)). }
    assert (HD : has_dot (flags_of s0) = false). { cbn [flags_of has_dot]. rewrite existsb_chars. apply existsb_none. intros c Hc. unfold made_of in H0. rewrite Forall_forall in H0. apply (hex_char_flags _ (H0 _ Hc)). }
    unfold base_of in *. rewrite HD, HC, HO in *. cbn [negb andb Z.eqb] in *. destruct (n <=? 8)%Z eqn:E; [apply Z.leb_le in E; lia|]. change (16 =? 16)%Z with true in *. cbv iota in *. exact (hex_silent _ _ HS HP).
Qed.

Lemma first_find : forall fs j f, nth_error fs j = Some f -> first_named fs j (f_name f) -> find (fun g => String.eqb (f_name f) (f_name g)) fs = Some f.
Proof.
  intros fs. induction fs as [|g fs IH]; intros j f Hj HN; [destruct j; discriminate|]. cbn [find]. destruct j as [|j].
  - cbn in Hj. apply some_inj in Hj. subst. rewrite String.eqb_refl. auto.
  - destruct (String.eqb_spec (f_name f) (f_name g)) as [E|E].
    + exfalso. apply (HN 0%nat g); [lia|reflexivity|auto].
    + apply (IH j); auto. intros i k Hi Hk. apply (HN (S i) k); [lia|auto].
Qed.

(** One assignment: what is said is what the parser of the value says. *)
Lemma one_said : forall t j f v o, In t hdr_tmpls -> h_parser t = HP_fields ->
  nth_error (h_fields t) j = Some f -> ~ In (h_name t, j) unsettable ->
  v <> "help" -> ~ ignore_word v -> field_text (f_parser f) v (Z.max 1 ((f_width f + 7) / 8)) = Ret o ->
  exists fr, argc_frame_says [h_name t; f_name f; v] = Ret (Some (3%nat, fr), value_says (f_parser f) v (BIT_TO_BYTE (f_width f))).
Proof.
  intros t j f v o Ht HP Hj HU HV HI HT. destruct (one_value t j f v o Ht HP Hj HU HV HI HT) as [h [f' [EF _]]]. destruct (settable_name t j f Ht Hj HU) as [HN [HH HG]].
  exists (MkFrame [h] 0 false). pose proof (frame_same [h_name t; f_name f; v]) as K. rewrite EF in K. remember (argc_frame_says [h_name t; f_name f; v]) as L eqn:EL.
  assert (KN : String.eqb (h_name t) "help" = false) by (assert (KN : forallb (fun t => negb (String.eqb (h_name t) "help")) hdr_tmpls = true) by (vm_compute; reflexivity); rewrite forallb_forall in KN; apply negb_true_iff; auto).
  assert (EI : is_ign (f_name f) = false) by (destruct (is_ign (f_name f)) eqn:X; [apply is_ign_iff in X; contradiction|auto]).
  assert (EV : is_ign v = false) by (destruct (is_ign v) eqn:X; [apply is_ign_iff in X; contradiction|auto]).
  assert (EM : is_multi (f_parser f) = false) by (destruct (f_parser f); try reflexivity; discriminate).
  unfold argc_frame_says in EL. change (FRAME_STACK_MAX <? zlen [h_name t; f_name f; v])%Z with false in EL. cbn [length argc_frame_loop_says] in EL. rewrite KN, (find_tmpl_name t Ht) in EL.
  change (FRAME_STACK_MAX <=? zlen (fr_stack empty_frame))%Z with false in EL. unfold parse_hdr_says at 1 in EL. rewrite HP in EL. unfold parse_fields_says in EL. cbn [length hpf_says] in EL. rewrite (proj2 (String.eqb_neq _ _) HH), EI in EL. cbn [andb] in EL.
  assert (E1 : find_field t (f_name f) = Some f) by (apply (first_find _ _ _ Hj HN)). rewrite E1, EV, (proj2 (String.eqb_neq _ _) HV), EM in EL.
  destruct (run_parser _ _ _ _) as [[h1 o1]|c]; cbn [bind] in EL; [|subst L; discriminate K].
  replace (skipn (0 + 2) [f_name f; v]) with (@nil string) in EL by reflexivity. cbn [bind] in EL. subst L. cbn [same] in K. apply ret_inj in K. rewrite K. rewrite !sapp_nil. reflexivity.
Qed.

(** ** Refused without a word *)

Lemma app_empty : forall a b : string, a ++ b = "" -> a = "" /\ b = "".
Proof. intros [|c a] b H; [auto|discriminate]. Qed.

Lemma field_help_text : forall t f n, field_help t f n <> "".
Proof.
  intros t f n H. unfold field_help in H. apply app_empty in H. destruct H as [_ H]. apply app_empty in H. destruct H as [_ H]. discriminate.
Qed.

Lemma hdr_help_text : forall h n b, hdr_help [h] n b <> "".
Proof.
  intros h n b H. unfold hdr_help in H. cbn [map texts] in H. apply app_empty in H. destruct H as [H _]. unfold hdr_help1 in H. apply app_empty in H. destruct H as [_ H]. apply app_empty in H. destruct H as [_ H]. discriminate.
Qed.

Lemma hpf_silent : forall fuel ws i h pad mask s, hpf_says fuel ws i h pad mask = Ret (PErr, s) -> s <> "".
Proof.
  induction fuel as [|fuel IH]; intros ws i h pad mask s H; [discriminate|]. cbn [hpf_says] in H. destruct ws as [|w r]; [discriminate|].
  destruct (String.eqb w "help"); [apply ret_inj in H; apply pair_inj in H; destruct H as [_ <-]; apply hdr_help_text|]. destruct (is_ign w && (i =? 0)%nat); [eauto|]. destruct (find_field h w) as [f|]; [|discriminate].
  destruct r as [|v r2]; [apply ret_inj in H; apply pair_inj in H; destruct H as [_ <-]; discriminate|]. destruct (is_ign v); [eauto|].
  destruct (String.eqb v "help"); [apply ret_inj in H; apply pair_inj in H; destruct H as [_ <-]; apply field_help_text|]. destruct (is_multi (f_parser f)).
  - destruct (run_multi _ _ _ _) as [[h1 cnt]|]; cbn [bind] in H; [|discriminate]. destruct (_ && _).
    + destruct (hpf_says _ _ _ _ _ _) as [[p s1]|] eqn:E; cbn [bind] in H; [|discriminate]. apply ret_inj in H. apply pair_inj in H. destruct H as [-> <-]. intros X. apply app_empty in X. apply (IH _ _ _ _ _ _ E). apply X.
    + apply ret_inj in H. apply pair_inj in H. destruct H as [_ <-]. intros X. apply app_empty in X. destruct X as [_ X]. discriminate.
  - destruct (run_parser _ _ _ _) as [[h1 o]|]; cbn [bind] in H; [|discriminate]. destruct (hpf_says _ _ _ _ _ _) as [[p s1]|] eqn:E; cbn [bind] in H; [|discriminate]. apply ret_inj in H. apply pair_inj in H. destruct H as [-> <-]. intros X. apply app_empty in X. apply (IH _ _ _ _ _ _ E). apply X.
Qed.

Definition bare (w : string) : Prop := w = "data" \/ w = "padding".

Lemma hdr_silent : forall ws t pad mask, In t hdr_tmpls -> parse_hdr_says ws t pad mask = Ret (PErr, "") -> bare (h_name t).
Proof.
  intros ws t pad mask Ht H. assert (KN : forallb (fun t => match h_parser t with HP_fields => true | _ => String.eqb (h_name t) "data" || String.eqb (h_name t) "padding" end) hdr_tmpls = true) by (vm_compute; reflexivity).
  rewrite forallb_forall in KN. specialize (KN _ Ht). unfold parse_hdr_says in H. destruct (h_parser t); [exfalso; exact (hpf_silent _ _ _ _ _ _ _ H eq_refl)| | |]; apply orb_true_iff in KN; destruct KN as [KN|KN]; apply String.eqb_eq in KN; [left|right|left|right|left|right]; auto.
Qed.

Lemma in_skipn : forall A n (l : list A) x, In x (skipn n l) -> In x l.
Proof. induction n as [|n IH]; intros [|a l] x H; auto. right. auto. Qed.

Lemma frame_loop_silent : forall fuel ws i f, argc_frame_loop_says fuel ws i f = Ret (None, "") -> exists w, In w ws /\ bare w.
Proof.
  induction fuel as [|fuel IH]; intros ws i f H; [discriminate|]. cbn [argc_frame_loop_says] in H. destruct ws as [|w r]; [discriminate|].
  destruct (String.eqb w "help"); [apply ret_inj in H; apply pair_inj in H; destruct H as [_ H]; discriminate|]. destruct (find_tmpl w) as [t|] eqn:E; [|discriminate]. destruct (FRAME_STACK_MAX <=? zlen (fr_stack f))%Z; [discriminate|].
  unfold find_tmpl in E. apply find_some in E. destruct E as [E1 E2]. apply String.eqb_eq in E2.
  destruct (parse_hdr_says r t _ _) as [[p s]|] eqn:EP; cbn [bind] in H; [|discriminate]. destruct p as [|n h pad mask].
  - apply ret_inj in H. apply pair_inj in H. destruct H as [_ ->]. exists w. split; [left; auto|]. rewrite E2. apply (hdr_silent _ _ _ _ E1 EP).
  - destruct (argc_frame_loop_says _ _ _ _) as [[o s2]|] eqn:EL; cbn [bind] in H; [|discriminate]. apply ret_inj in H. apply pair_inj in H. destruct H as [-> H]. apply app_empty in H. destruct H as [_ ->].
    destruct (IH _ _ _ EL) as [x [X1 X2]]. exists x. split; [right; apply (in_skipn _ _ _ _ X1)|auto].
Qed.

Lemma frame_silent : forall ws, argc_frame_says ws = Ret (None, "") -> exists w, In w ws /\ bare w.
Proof. intros ws H. unfold argc_frame_says in H. destruct (_ <? _)%Z; [discriminate|]. apply (frame_loop_silent _ _ _ _ H). Qed.

Lemma finish_silent : forall ct nm a rep i ws, finish_cmd_says ct nm a rep i ws = Ret (CErr, "") -> exists w, In w ws /\ bare w.
Proof.
  intros ct nm a rep i ws H. unfold finish_cmd_says in H. destruct (argc_frame_says ws) as [[o s]|] eqn:E; cbn [bind] in H; [|discriminate]. destruct o as [[n f]|].
  - destruct n; [destruct ct; discriminate|]. destruct (frame_to_buf f) as [[f1 b]|]; cbn [bind] in H; [|discriminate]. destruct (if fr_has_mask f1 then _ else _); cbn [bind] in H; discriminate.
  - apply ret_inj in H. apply pair_inj in H. destruct H as [_ ->]. apply (frame_silent _ E).
Qed.

Lemma cmd_frame_silent : forall ct nm a rep i ws, cmd_frame_says ct nm a rep i ws = Ret (CErr, "") -> exists w, In w ws /\ bare w.
Proof. intros ct nm a rep i ws H. unfold cmd_frame_says in H. destruct ws as [|w [|x ws]]; try exact (finish_silent _ _ _ _ _ _ H). destruct (_ && _); [discriminate|exact (finish_silent _ _ _ _ _ _ H)]. Qed.

Lemma cmd_silent : forall ws, argc_cmd_says ws = Ret (CErr, "") -> exists w, In w ws /\ bare w.
Proof.
  intros ws H. unfold argc_cmd_says in H. destruct ws as [|w r]; [discriminate|]. destruct (cmd_word w) as [ct|]; [|destruct (String.eqb w "help"); discriminate].
  destruct r as [|a r2]; [discriminate|]. 
  assert (L : forall n, (exists y, In y (skipn n (w :: a :: r2)) /\ bare y) -> exists y, In y (w :: a :: r2) /\ bare y) by (intros n [y [Y1 Y2]]; exists y; split; [apply (in_skipn _ _ _ _ Y1)|auto]).
  destruct ct; [apply (L 2%nat)|apply (L 2%nat)|apply (L 1%nat)|apply (L 2%nat)|]; try exact (cmd_frame_silent _ _ _ _ _ _ H).
  destruct r2 as [|x r3]; [discriminate|]. destruct (_ || _); [|apply (L 2%nat); exact (cmd_frame_silent _ _ _ _ _ _ H)]. destruct r3 as [|y r4]; [discriminate|]. apply (L 4%nat). exact (cmd_frame_silent _ _ _ _ _ _ H).
Qed.

Lemma cmds_silent : forall slots ws i k n, argc_cmds_says slots ws i k n = Ret (None, "") -> exists w, In w ws /\ bare w.
Proof.
  assert (PE : forall i n k, parse_error i n k <> "") by (intros i n k; discriminate).
  induction slots as [|slots IH]; intros ws i k n H; cbn [argc_cmds_says] in H; (destruct ws as [|w ws]; [discriminate|]).
  - apply ret_inj in H. apply pair_inj in H. destruct H as [_ H]. discriminate.
  - destruct (argc_cmd_says (w :: ws)) as [[r s]|] eqn:E; cbn [bind] in H; [|discriminate]. destruct r as [| |m c].
    + apply ret_inj in H. apply pair_inj in H. destruct H as [_ ->]. apply (cmd_silent _ E).
    + apply ret_inj in H. apply pair_inj in H. destruct H as [_ H]. apply app_empty in H. destruct H as [_ H]. discriminate.
    + destruct (argc_cmds_says slots _ _ _ _) as [[o s2]|] eqn:EL; cbn [bind] in H; [|discriminate]. apply ret_inj in H. apply pair_inj in H. destruct H as [H1 H2]. destruct o; [discriminate|]. apply app_empty in H2. destruct H2 as [_ ->].
      destruct (IH _ _ _ _ EL) as [x [X1 X2]]. exists x. split; [apply (in_skipn _ m _ _ X1)|auto].
Qed.

(** C76 *)
Lemma refused_silent : forall ws, parse_cmds_says ws = Ret (None, "") -> In "data" ws \/ In "padding" ws.
Proof. intros ws H. destruct (cmds_silent _ _ _ _ _ H) as [w [H1 [ -> | -> ]]]; auto. Qed.

Lemma refused_said : forall ws s, parse_cmds_says ws = Ret (None, s) -> ~ In "data" ws -> ~ In "padding" ws -> s <> "".
Proof. intros ws s H H1 H2 ->. destruct (refused_silent _ H); auto. Qed.

Lemma fields_help_true : forall t w, In t hdr_tmpls -> h_parser t = HP_fields -> w <> "help" -> ~ ignore_word w ->
  exists s, argc_frame_says [h_name t; "help"] = Ret (None, s) /\
  ((exists o d, In (w, o, d) (listed_fields s)) <-> argc_frame_says [h_name t; w] = Ret (None, "ERROR: Missing argument to " ++ w ++ String newline "")).
Proof. intros t w Ht HP H1 H2. exists (hdr_help [t] 0 true). split; [apply hdr_help_shown; auto|]. apply fields_listed; auto. Qed.

Lemma places_help_true : forall n m fld off w, format_named n m -> fld <> "-" -> place m fld = Some (off, w) ->
  exists s, argc_frame_says [n; "help"] = Ret (None, s) /\
    find (fun r => String.eqb fld (fst (fst r))) (listed_fields s) = Some (fld, decimal off, decimal w).
Proof. intros n m fld off w H1 H2 H3. destruct (format_rows n m fld off w H1 H2 H3) as [t [T1 [<- [T3 T4]]]]. exists (hdr_help [t] 0 true). split; [apply hdr_help_shown; auto|auto]. Qed.

Lemma bytes_of_bits : forall t j f, In t hdr_tmpls -> nth_error (h_fields t) j = Some f -> BIT_TO_BYTE (f_width f) = Z.max 1 ((f_width f + 7) / 8).
Proof.
  intros t j f Ht Hj. assert (KN : forallb (fun t => forallb (fun f => BIT_TO_BYTE (f_width f) =? Z.max 1 ((f_width f + 7) / 8))%Z (h_fields t)) hdr_tmpls = true) by (vm_compute; reflexivity).
  rewrite forallb_forall in KN. specialize (KN _ Ht). rewrite forallb_forall in KN. specialize (KN _ (nth_error_In _ _ Hj)). lia.
Qed.

Lemma readable_quiet : forall t j f v b, In t hdr_tmpls -> h_parser t = HP_fields ->
  nth_error (h_fields t) j = Some f -> ~ In (h_name t, j) unsettable -> v <> "help" -> ~ ignore_word v ->
  field_text (f_parser f) v (Z.max 1 ((f_width f + 7) / 8)) = Ret (Some b) ->
  exists fr, argc_frame_says [h_name t; f_name f; v] = Ret (Some (3%nat, fr), "").
Proof.
  intros t j f v b Ht HP Hj HU HV HI HT. destruct (one_said t j f v _ Ht HP Hj HU HV HI HT) as [fr E]. exists fr. rewrite E. do 2 f_equal.
  destruct (String.eqb_spec (value_says (f_parser f) v (BIT_TO_BYTE (f_width f))) "") as [|NE]; [auto|]. exfalso. rewrite (bytes_of_bits t j f Ht Hj) in NE. pose proof (value_said _ t _ _ NE) as R. unfold run_parser in R. unfold field_text in HT.
  destruct (f_parser f); try discriminate; rewrite ?HT in R; cbn [bind] in R; try discriminate. apply ret_inj in R. apply pair_inj in R. apply ret_inj in HT. destruct R as [_ R]. congruence.
Qed.

Lemma unreadable_reported : forall t j f v, In t hdr_tmpls -> h_parser t = HP_fields ->
  nth_error (h_fields t) j = Some f -> ~ In (h_name t, j) unsettable -> v <> "help" -> ~ ignore_word v -> f_parser f = FP_default ->
  looks_right (Z.max 1 ((f_width f + 7) / 8)) v -> ~ with_0b v -> parse_bytes v (Z.max 1 ((f_width f + 7) / 8)) = Ret None ->
  exists fr s, argc_frame_says [h_name t; f_name f; v] = Ret (Some (3%nat, fr), s) /\ s <> "".
Proof.
  intros t j f v Ht HP Hj HU HV HI HD HL HB HN. destruct (one_said t j f v None Ht HP Hj HU HV HI ltac:(rewrite HD; exact HN)) as [fr E]. exists fr. eexists. split; [exact E|].
  rewrite HD, (bytes_of_bits t j f Ht Hj). cbn [value_says]. apply reported; auto.
Qed.

(** "help" behind a field prints its row of the help of the header. *)
Lemma app_assoc_s : forall a b c : string, (a ++ b) ++ c = a ++ (b ++ c).
Proof. induction a as [|x a IH]; intros b c; cbn [append]; [auto|]. rewrite IH. reflexivity. Qed.
Lemma app_nil_s : forall a : string, a ++ "" = a.
Proof. induction a as [|x a IH]; cbn [append]; [auto|]. rewrite IH. reflexivity. Qed.

Lemma own_row : forall w fs ts f n, find (fun f => String.eqb w (f_name f)) fs = Some f ->
  exists p q, fields_help ts fs n = p ++ spaces n ++ field_help (text_at ts fs w) f 0 ++ q.
Proof.
  intros w. induction fs as [|g fs IH]; intros ts f n H; [discriminate|]. cbn [find] in H. cbn [fields_help text_at]. destruct (String.eqb w (f_name g)).
  - apply some_inj in H. subst g. exists "", (fields_help (tl ts) fs n). unfold field_help. change (spaces 0) with "". rewrite !app_assoc_s. reflexivity.
  - destruct (IH (tl ts) f n H) as [p [q E]]. exists (field_help (hd None ts) g n ++ p), q. rewrite E, !app_assoc_s. reflexivity.
Qed.

Fixpoint rows_chk (ts : list (option string)) (fs : list field) : bool :=
  match fs with
  | [] => true
  | f :: r => (let '(a, b, c) := field_row (field_help (hd None ts) f 0) in String.eqb a (f_name f) && String.eqb b (decimal (f_off f)) && String.eqb c (decimal (f_width f))) && rows_chk (tl ts) r
  end.

Lemma rows_chk_spec : forall w fs ts f t, rows_chk ts fs = true -> find (fun f => String.eqb w (f_name f)) fs = Some f -> field_row (field_help (text_at ts fs w) f 0) = shows t f.
Proof.
  intros w. induction fs as [|g fs IH]; intros ts f t K H; [discriminate|]. cbn [find] in H. cbn [rows_chk] in K. cbn [text_at]. apply andb_true_iff in K. destruct K as [K1 K2]. destruct (String.eqb w (f_name g)).
  - apply some_inj in H. subst g. destruct (field_row (field_help (hd None ts) f 0)) as [[a b] c]. rewrite !andb_true_iff, !String.eqb_eq in K1. unfold shows. destruct K1 as [[-> ->] ->]. reflexivity.
  - apply IH; auto.
Qed.

Lemma field_help_true : forall t w, In t hdr_tmpls -> h_parser t = HP_fields -> w <> "help" -> ~ ignore_word w ->
  argc_frame_says [h_name t; w] = Ret (None, "ERROR: Missing argument to " ++ w ++ String newline "") ->
  exists s l p q, argc_frame_says [h_name t; "help"] = Ret (None, s) /\ argc_frame_says [h_name t; w; "help"] = Ret (None, l) /\
    s = p ++ "  " ++ l ++ q /\ find (fun r => String.eqb w (fst (fst r))) (listed_fields s) = Some (field_row l).
Proof.
  intros t w Ht HP HH HI HM. apply fields_listed in HM; auto. rewrite rows_shown in HM by auto.
  assert (KN : forallb (fun t => negb (String.eqb (h_name t) "help")) hdr_tmpls = true) by (vm_compute; reflexivity). rewrite forallb_forall in KN. specialize (KN _ Ht). apply negb_true_iff in KN.
  assert (EI : is_ign w = false) by (unfold is_ign; destruct (String.eqb_spec w "ign"); [exfalso; apply HI; left; auto|]; destruct (String.eqb_spec w "ignore"); [exfalso; apply HI; right; auto|auto]).
  assert (EH : String.eqb w "help" = false) by (destruct (String.eqb_spec w "help"); congruence).
  destruct (find_field t w) as [f|] eqn:EF.
  2:{ exfalso. apply find_field_none in EF. apply EF. destruct HM as [o [d H]]. apply in_map_iff in H. destruct H as [f [H1 H2]]. unfold shows in H1. apply in_map_iff. exists f. split; [congruence|auto]. }
  destruct (own_row w (h_fields t) (snd (help_of (h_name t))) f 2 EF) as [p [q E]]. fold (help_text t w) in E. set (l := field_help (help_text t w) f 0) in *.
  assert (ES : exists p0, hdr_help [t] 0 true = p0 ++ fields_help (snd (help_of (h_name t))) (h_fields t) 2).
  { unfold hdr_help. cbn [map texts]. unfold hdr_help1. cbv iota. change (0 + 2)%nat with 2%nat. eexists. rewrite app_nil_s. rewrite <- !app_assoc_s. reflexivity. }
  destruct ES as [p0 ES]. exists (hdr_help [t] 0 true), l, (p0 ++ p), q. split; [apply hdr_help_shown; auto|]. split; [|split].
  - unfold argc_frame_says. change (FRAME_STACK_MAX <? zlen [h_name t; w; "help"])%Z with false. cbn [length argc_frame_loop_says]. rewrite KN, (find_tmpl_name t Ht).
    change (FRAME_STACK_MAX <=? zlen (fr_stack empty_frame))%Z with false. unfold parse_hdr_says at 1. rewrite HP. unfold parse_fields_says. cbn [length hpf_says]. rewrite EH, EI. cbn [andb]. rewrite EF. reflexivity.
  - rewrite ES, E. change (spaces 2) with "  ". rewrite <- !app_assoc_s. reflexivity.
  - rewrite rows_shown by auto. assert (KR : forallb (fun t => match h_parser t with HP_fields => rows_chk (snd (help_of (h_name t))) (h_fields t) | _ => true end) hdr_tmpls = true) by (vm_compute; reflexivity).
    rewrite forallb_forall in KR. specialize (KR _ Ht). rewrite HP in KR. unfold l, help_text. rewrite (rows_chk_spec w (h_fields t) _ f t KR EF). clear - EF. unfold find_field in EF.
    induction (h_fields t) as [|g fs IH]; [discriminate|]. cbn [find map] in *. unfold shows at 1. cbn [fst]. destruct (String.eqb w (f_name g)); [apply some_inj in EF; subst g; reflexivity|apply IH; exact EF].
Qed.

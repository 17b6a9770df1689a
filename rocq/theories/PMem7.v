(** Memory: when a block is lost. *)

From Verif Require Import PTextHex PInv PParse SpecMem PMem PMem3 PMem6 BaseFacts.

(** ** Words *)

Definition warned (ok : Prop) (ws : list string) : Prop := may_lose ws -> ok.

Lemma follows_app : forall pre ws w v, follows ws w v -> follows (pre ++ ws) w v.
Proof. intros pre ws w v (p & q & ->). exists (pre ++ p), q. rewrite <- app_assoc. reflexivity. Qed.

Lemma may_lose_app : forall pre ws, may_lose ws -> may_lose (pre ++ ws).
Proof.
  intros pre ws [(v & HF & HD)|HI]; [left; exists v; split; auto; apply follows_app; auto|right; apply in_or_app; auto].
Qed.

Lemma warned_tail : forall ok w ws, warned ok (w :: ws) -> warned ok ws.
Proof. intros ok w ws HW HM. apply HW. exact (may_lose_app [w] ws HM). Qed.

Lemma warned_skipn : forall ok n ws, warned ok ws -> warned ok (skipn n ws).
Proof. intros ok n ws HW HM. apply HW. rewrite <- (firstn_skipn n ws). apply may_lose_app. auto. Qed.

Lemma hex_digits_eq : forall s, Z.of_nat (hex_digits s) = hexcount s.
Proof.
  unfold hex_digits. set (p := fun c => existsb (Ascii.eqb c) (list_ascii_of_string "0123456789abcdefABCDEF")).
  assert (E : forall c, p c = if hexval c then true else false) by (intros [[] [] [] [] [] [] [] []]; vm_compute; reflexivity).
  clearbody p. induction s as [|c s IH]; [reflexivity|]. cbn [list_ascii_of_string filter hexcount].
  rewrite E. destruct (hexval c); cbn [length]; lia.
Qed.

Lemma hex_len : forall s m b, parse_var_bytes_hex s m = Ret (Some b) -> zlen b = Z.max (hexcount s / 2) m \/ m < 0.
Proof.
  intros s m b E. destruct (Z.lt_ge_cases m 0) as [HM|HM]; [auto|left]. unfold parse_var_bytes_hex in E.
  pose proof (nib_scan_count s 0 false false) as Hc. destruct (nib_scan s 0 false false) as [[cnt o] al]. cbn [fst snd] in Hc.
  destruct (o || (cnt =? 0)); [discriminate|]. destruct al; [discriminate|].
  destruct (nib_fill s (balloc (Z.max (cnt / 2) m)) 0 0) as [b'|] eqn:EF; cbn [bind] in E; [|discriminate].
  apply ret_inj, some_inj in E. subst b'. apply nib_fill_inv in EF; [|apply balloc_bytes]. destruct EF as [Hl _].
  unfold zlen. rewrite Hl. fold (zlen (balloc (Z.max (cnt / 2) m))). rewrite zlen_balloc by lia. rewrite Hc. reflexivity.
Qed.

(** ** The invariant *)

Definition cell_ok (n : string) (p : field_parser) : Prop :=
  (p = FP_coap_token -> n = "token"%string) /\ (p = FP_field_hex -> n = "meg_id"%string).
Definition mcell (c : mfield) : Prop := cell_ok (mf_name c) (mf_parser c).
Definition vcell (f : field) : Prop := cell_ok (f_name f) (f_parser f).

Definition blk_ok (b : block) : Prop := match b with BFields l => Forall mcell l | _ => True end.

Definition wf (ok : Prop) (H : heap) : Prop :=
  Forall (fun s => match s with Live _ b => blk_ok b | Dead => True | Lost b => ok /\ blk_ok b end) H.

Definition keeps {A} (ok : Prop) (m : M A) (P : A -> Prop) : Prop :=
  forall H x H', wf ok H -> m H = MRet x H' -> wf ok H' /\ P x.

Section Keeps.
Context (ok : Prop).

Lemma keeps_ret : forall A (x : A) (P : A -> Prop), P x -> keeps ok (ret x) P.
Proof. intros A x P HP H y H' HW E. injection E as <- <-. auto. Qed.

Lemma keeps_bind : forall A B (m : M A) (k : A -> M B) (P : A -> Prop) (Q : B -> Prop),
  keeps ok m P -> (forall x, P x -> keeps ok (k x) Q) -> keeps ok (mbind m k) Q.
Proof.
  intros A B m k P Q HM HK H x H' HW E. unfold mbind in E. destruct (m H) as [y G| |] eqn:EM; try discriminate.
  destruct (HM H y G HW EM) as [HG HP]. eapply HK; eauto.
Qed.

Lemma keeps_mono : forall A (m : M A) (P Q : A -> Prop), keeps ok m P -> (forall x, P x -> Q x) -> keeps ok m Q.
Proof. intros A m P Q HM HPQ H x H' HW E. destruct (HM H x H' HW E). auto. Qed.

Lemma keeps_lift : forall A (o : out A), keeps ok (lift o) (fun x => o = Ret x).
Proof. intros A o H x H' HW E. unfold lift in E. destruct o; [|discriminate]. injection E as -> ->. auto. Qed.

Lemma keeps_fault : forall A f (P : A -> Prop), keeps ok (mfault f) P.
Proof. intros A f P H x H' HW E. discriminate. Qed.

Lemma wf_app : forall H s, wf ok H -> match s with Live _ b => blk_ok b | Dead => True | Lost b => ok /\ blk_ok b end -> wf ok (H ++ [s]).
Proof. intros H s HW HS. apply Forall_app. split; auto. Qed.

Lemma wf_upd : forall H a s, wf ok H -> match s with Live _ b => blk_ok b | Dead => True | Lost b => ok /\ blk_ok b end -> wf ok (upd H a s).
Proof.
  unfold wf. intros H. induction H as [|y H IH]; intros [|a] s HW HS; cbn [upd]; auto.
  - constructor; [auto|exact (Forall_inv_tail HW)].
  - constructor; [exact (Forall_inv HW)|apply IH; [exact (Forall_inv_tail HW)|auto]].
Qed.

Lemma wf_nth : forall H a s, wf ok H -> nth_error H a = Some s -> match s with Live _ b => blk_ok b | Dead => True | Lost b => ok /\ blk_ok b end.
Proof. intros H a s HW E. unfold wf in HW. rewrite Forall_forall in HW. apply (HW s). eapply nth_error_In; eauto. Qed.

Lemma keeps_alloc : forall b, blk_ok b -> keeps ok (alloc b) (fun _ => True).
Proof. intros b HB H x H' HW E. injection E as <- <-. split; auto. apply wf_app; auto. Qed.

Lemma keeps_place : forall b, blk_ok b -> keeps ok (place b) (fun _ => True).
Proof. intros b HB H x H' HW E. injection E as <- <-. split; auto. apply wf_app; auto. Qed.

Lemma keeps_lose : forall b, ok -> blk_ok b -> keeps ok (lose b) (fun _ => True).
Proof. intros b HO HB H x H' HW E. injection E as <- <-. split; auto. apply wf_app; auto. Qed.

Lemma keeps_read : forall a, keeps ok (read a) blk_ok.
Proof.
  intros a H x H' HW E. unfold read in E. destruct (nth_error H a) as [[s b| |b]|] eqn:EN; try discriminate; injection E as <- <-;
    pose proof (wf_nth _ _ _ HW EN) as HN; cbn in HN; intuition.
Qed.

Lemma keeps_write : forall a b, blk_ok b -> keeps ok (write a b) (fun _ => True).
Proof.
  intros a b HB H x H' HW E. unfold write in E. destruct (nth_error H a) as [[s b0| |b0]|] eqn:EN; try discriminate; injection E as <- <-;
    pose proof (wf_nth _ _ _ HW EN) as HN; cbn in HN; split; auto; apply wf_upd; auto. intuition.
Qed.

Lemma keeps_free : forall p, keeps ok (free p) (fun _ => True).
Proof.
  intros [a|] H x H' HW E; unfold free in E; [|injection E as <- <-; auto].
  destruct (nth_error H a) as [[[|] b0| |b0]|] eqn:EN; try discriminate; injection E as <- <-; split; auto; apply wf_upd; auto; exact I.
Qed.

Ltac kb := eapply keeps_bind.
Ltac triv := apply keeps_ret; exact I.

Lemma keeps_read_buf : forall a, keeps ok (read_buf a) (fun _ => True).
Proof. intros a. kb; [apply keeps_read|]. intros [] HB; solve [apply keeps_fault|apply keeps_ret; auto]. Qed.
Lemma keeps_read_str : forall a, keeps ok (read_str a) (fun _ => True).
Proof. intros a. kb; [apply keeps_read|]. intros [] HB; solve [apply keeps_fault|apply keeps_ret; auto]. Qed.
Lemma keeps_read_fields : forall a, keeps ok (read_fields a) (Forall mcell).
Proof. intros a. kb; [apply keeps_read|]. intros [] HB; solve [apply keeps_fault|apply keeps_ret; auto]. Qed.
Lemma keeps_read_hdr : forall a, keeps ok (read_hdr a) (fun _ => True).
Proof. intros a. kb; [apply keeps_read|]. intros [] HB; solve [apply keeps_fault|apply keeps_ret; auto]. Qed.
Lemma keeps_read_frame : forall a, keeps ok (read_frame a) (fun _ => True).
Proof. intros a. kb; [apply keeps_read|]. intros [] HB; solve [apply keeps_fault|apply keeps_ret; auto]. Qed.

Lemma keeps_bclone : forall p, keeps ok (m_bclone p) (fun _ => True).
Proof. intros [a|]; cbn [m_bclone]; [|triv]. kb; [apply keeps_read_buf|]. intros b _. kb; [apply keeps_alloc; exact I|]. intros; triv. Qed.

Lemma keeps_field_copy : forall c, mcell c -> keeps ok (m_field_copy c) mcell.
Proof. intros c HC. kb; [apply keeps_bclone|]. intros v _. kb; [apply keeps_bclone|]. intros d _. apply keeps_ret. exact HC. Qed.

Lemma keeps_destruct_loop : forall l, keeps ok (m_destruct_loop l) (fun _ => True).
Proof.
  induction l as [|c l IH]; cbn [m_destruct_loop]; [triv|]. kb; [|intros _ _; exact IH].
  unfold m_field_destruct, m_bfree. kb; [apply keeps_free|]. intros _ _. apply keeps_free.
Qed.

Lemma keeps_hdr_free : forall p, keeps ok (m_hdr_free p) (fun _ => True).
Proof.
  intros [a|]; cbn [m_hdr_free]; [|triv]. kb; [|intros; apply keeps_free].
  instantiate (1 := fun _ => True). unfold m_hdr_destruct. kb; [apply keeps_read_hdr|]. intros h _. destruct (mh_fields h); [|triv].
  kb; [apply keeps_read_fields|]. intros l _. kb; [apply keeps_destruct_loop|]. intros; apply keeps_free.
Qed.

Lemma keeps_copy_loop : forall l fa, Forall mcell l -> keeps ok (m_copy_loop l fa) (fun _ => True).
Proof.
  induction l as [|c l IH]; intros fa HL; cbn [m_copy_loop]; [triv|].
  kb; [apply keeps_field_copy; exact (Forall_inv HL)|]. intros c' HC. kb; [apply keeps_read_fields|]. intros l' HL'.
  kb; [apply keeps_write; cbn; apply Forall_app; split; auto|]. intros _ _. apply IH. exact (Forall_inv_tail HL).
Qed.

Lemma keeps_hdr_clone : forall a, keeps ok (m_hdr_clone a) (fun _ => True).
Proof.
  intros a. kb; [apply keeps_alloc; exact I|]. intros d _. kb; [|intros; triv]. instantiate (1 := fun _ => True).
  unfold m_hdr_copy. kb; [apply keeps_read_hdr|]. intros h _. kb; [apply keeps_write; exact I|]. intros _ _.
  destruct (mh_fields h) as [sa|]; [|triv]. kb; [apply keeps_read_fields|]. intros l HL. destruct l as [|c l]; [triv|].
  kb; [apply keeps_alloc; constructor|]. intros fa _. kb; [apply keeps_write; exact I|]. intros _ _. apply keeps_copy_loop. exact HL.
Qed.

Lemma keeps_frame_free : forall p, keeps ok (m_frame_free p) (fun _ => True).
Proof.
  intros [a|]; cbn [m_frame_free]; [|triv]. kb; [|intros; apply keeps_free]. instantiate (1 := fun _ => True). kb; [apply keeps_read_frame|]. intros f _.
  generalize (mr_stack f). induction l as [|x l IH]; cbn [m_free_loop]; [triv|].
  kb; [apply keeps_hdr_free|]. intros; exact IH.
Qed.

Lemma keeps_clone_loop : forall l i d, keeps ok (m_clone_loop l i d) (fun _ => True).
Proof.
  induction l as [|x l IH]; intros i d; cbn [m_clone_loop]; [triv|]. kb; [apply keeps_hdr_clone|]. intros a _.
  kb; [apply keeps_read_frame|]. intros f _. kb; [apply keeps_write; exact I|]. intros _ _. apply IH.
Qed.

Lemma keeps_frame_clone : forall p, keeps ok (m_frame_clone p) (fun _ => True).
Proof.
  intros [a|]; cbn [m_frame_clone]; [|apply keeps_fault]. kb; [apply keeps_alloc; exact I|]. intros d _.
  kb; [|intros; triv]. instantiate (1 := fun _ => True). unfold m_frame_copy. kb; [apply keeps_read_frame|]. intros f _.
  kb; [apply keeps_write; exact I|]. intros _ _. apply keeps_clone_loop.
Qed.

Lemma keeps_frame_reset : forall a, keeps ok (m_frame_reset a) (fun _ => True).
Proof.
  intros a. kb; [apply keeps_read_frame|]. intros f _. kb; [|intros; apply keeps_write; exact I]. instantiate (1 := fun _ => True).
  generalize (mr_stack f). induction l as [|x l IH]; cbn [m_reset_loop]; [triv|].
  kb; [apply keeps_read_hdr|]. intros h _. kb; [apply keeps_free|]. intros _ _. kb; [apply keeps_free|]. intros; exact IH.
Qed.

Lemma keeps_get_buf : forall p, keeps ok (m_get_buf p) (fun _ => True).
Proof. intros [a|]; cbn [m_get_buf]; [|triv]. kb; [apply keeps_read_buf|]. intros; triv. Qed.

Lemma keeps_get_fields : forall l, Forall mcell l -> keeps ok (m_get_fields l) (Forall vcell).
Proof.
  induction l as [|c l IH]; intros HL; cbn [m_get_fields]; [apply keeps_ret; constructor|].
  kb; [|intros f HF; kb; [apply IH; exact (Forall_inv_tail HL)|]; intros fs HFS; apply keeps_ret; constructor; [exact HF|exact HFS]].
  kb; [apply keeps_get_buf|]. intros d _. kb; [apply keeps_get_buf|]. intros v _. apply keeps_ret. exact (Forall_inv HL).
Qed.

Lemma keeps_get_hdr : forall a, keeps ok (m_get_hdr a) (fun h => Forall vcell (h_fields h)).
Proof.
  intros a. kb; [apply keeps_read_hdr|]. intros h _.
  kb; [instantiate (1 := Forall mcell); destruct (mh_fields h); [apply keeps_read_fields|apply keeps_ret; constructor]|]. intros l HL.
  kb; [apply keeps_get_fields; exact HL|]. intros fs HF. apply keeps_ret. exact HF.
Qed.

Lemma keeps_get_frame : forall a, keeps ok (m_get_frame a) (fun _ => True).
Proof.
  intros a. kb; [apply keeps_read_frame|]. intros f _. kb; [|intros; triv]. instantiate (1 := fun _ => True).
  generalize (mr_stack f). induction l as [|x l IH]; cbn [m_get_stack]; [triv|].
  kb; [apply keeps_get_hdr|]. intros h _. kb; [exact IH|]. intros; triv.
Qed.

Lemma keeps_new_buf : forall o, keeps ok (m_new_buf o) (fun _ => True).
Proof. intros [b|]; cbn [m_new_buf]; [|triv]. kb; [apply keeps_alloc; exact I|]. intros; triv. Qed.

Lemma keeps_store_fields : forall l fs, Forall mcell l -> keeps ok (m_store_fields l fs) (Forall mcell).
Proof.
  induction l as [|c l IH]; intros [|f fs] HL; cbn [m_store_fields]; try (apply keeps_ret; constructor).
  kb; [|intros c' HC; kb; [apply IH; exact (Forall_inv_tail HL)|]; intros l' HL'; apply keeps_ret; constructor; [exact HC|exact HL']].
  kb; [apply keeps_get_buf|]. intros old _. kb; [|intros v _; apply keeps_ret; exact (Forall_inv HL)]. instantiate (1 := fun _ => True).
  destruct (opt_buf_eqb old (f_val f)); [triv|]. kb; [apply keeps_new_buf|]. intros n _. kb; [apply keeps_free|]. intros; triv.
Qed.

Lemma keeps_store_hdr : forall a h, keeps ok (m_store_hdr a h) (fun _ => True).
Proof.
  intros a h. kb; [apply keeps_read_hdr|]. intros mh _. kb; [|intros _ _; apply keeps_write; exact I].
  instantiate (1 := fun _ => True). destruct (mh_fields mh); [|triv]. kb; [apply keeps_read_fields|]. intros l HL.
  kb; [apply keeps_store_fields; exact HL|]. intros l' HL'. apply keeps_write. exact HL'.
Qed.

Lemma keeps_store_stack : forall l hs, keeps ok (m_store_stack l hs) (fun _ => True).
Proof. induction l as [|a l IH]; intros [|h hs]; cbn [m_store_stack]; try triv. kb; [apply keeps_store_hdr|]. intros _ _. apply IH. Qed.

(** ** Parsing *)

Lemma keeps_parser_lost : forall w v r f n, warned ok (w :: v :: r) -> vcell f -> f_name f = w ->
  keeps ok (m_parser_lost (f_parser f) v n) (fun _ => True).
Proof.
  intros w v r f n HW [HT HM] EN. rewrite EN in *. unfold m_parser_lost. destruct (f_parser f); try triv.
  - assert (HO : ok) by (apply HW; right; left; auto).
    destruct (parse_var_bytes_hex v 0) as [[b|]|]; try triv. destruct (n <? zlen b); [|triv].
    kb; [apply keeps_lose; [exact HO|exact I]|]. intros. apply keeps_lose; [exact HO|exact I].
  - destruct (parse_var_bytes_hex v 1) as [[b|]|] eqn:E; try triv. destruct ((8 <? zlen b) || (zlen b =? 0)) eqn:EB; [|triv].
    apply keeps_lose; [|exact I]. apply HW. left. exists v. split; [exists [], r; rewrite HT by auto; reflexivity|].
    destruct (hex_len _ _ _ E) as [HL|HL]; [|lia]. pose proof (hex_digits_eq v). lia.
Qed.

Lemma keeps_hpf_loop : forall fuel ws i a pad mask, warned ok ws -> keeps ok (m_hpf_loop fuel ws i a pad mask) (fun _ => True).
Proof.
  induction fuel as [|fuel IH]; intros ws i a pad mask HW; cbn [m_hpf_loop]; [eapply keeps_mono; [apply keeps_lift|auto]|].
  kb; [apply keeps_get_hdr|]. intros h HH. destruct ws as [|w r]; [triv|].
  destruct (String.eqb w "help"); [triv|]. pose proof (warned_tail _ _ _ HW) as HW1.
  destruct (is_ign w && (i =? 0)%nat). { kb; [apply keeps_store_hdr|]. intros _ _. apply IH. auto. }
  destruct (find_field h w) as [f|] eqn:EF; [|triv]. apply find_field_in in EF. destruct EF as [HIN EN].
  kb; [apply keeps_store_hdr|]. intros _ _. kb; [apply keeps_get_hdr|]. intros h0 _. destruct r as [|v r2]; [triv|].
  pose proof (warned_tail _ _ _ HW1) as HW2.
  destruct (is_ign v). { kb; [apply keeps_store_hdr|]. intros _ _. apply IH. auto. }
  destruct (String.eqb v "help"); [triv|]. destruct (is_multi (f_parser f)).
  - kb; [apply keeps_lift|]. intros [h1 cnt] _. kb; [apply keeps_store_hdr|]. intros _ _. destruct (_ && _); [|triv].
    kb; [apply keeps_store_hdr|]. intros _ _. apply IH. apply warned_skipn. auto.
  - kb; [apply keeps_lift|]. intros [h1 o] _.
    kb; [eapply keeps_parser_lost; [exact HW| |exact EN]; rewrite Forall_forall in HH; auto|]. intros _ _.
    kb; [apply keeps_store_hdr|]. intros _ _. kb; [apply keeps_store_hdr|]. intros _ _. apply IH. auto.
Qed.

Lemma keeps_parse_hdr : forall ws a pad mask, warned ok ws -> keeps ok (m_parse_hdr ws a pad mask) (fun _ => True).
Proof.
  intros ws a pad mask HW. kb; [apply keeps_get_hdr|]. intros h _. destruct (h_parser h); try (apply keeps_hpf_loop; exact HW).
  all: kb; [apply keeps_lift|]; intros [|n h' pad' mask'] _; [triv|]; kb; [apply keeps_store_hdr|]; intros; triv.
Qed.

Lemma keeps_find_tmpl : forall w tab, keeps ok (m_find_tmpl w tab) (fun _ => True).
Proof. induction tab as [|t tab IH]; cbn [m_find_tmpl]; [triv|]. kb; [apply keeps_read_hdr|]. intros h _. destruct (String.eqb w (mh_name h)); [triv|exact IH]. Qed.

Lemma keeps_push_hdr : forall f t, keeps ok (m_push_hdr f t) (fun _ => True).
Proof.
  intros f t. kb; [apply keeps_hdr_clone|]. intros a _. kb; [apply keeps_read_frame|]. intros fr _.
  destruct (_ <=? _); [eapply keeps_mono; [apply keeps_lift|auto]|]. kb; [apply keeps_write; exact I|]. intros; triv.
Qed.

Lemma keeps_argc_frame_loop : forall tab fuel ws i fa, warned ok ws -> keeps ok (m_argc_frame_loop tab fuel ws i fa) (fun _ => True).
Proof.
  induction fuel as [|fuel IH]; intros ws i fa HW; cbn [m_argc_frame_loop]; [eapply keeps_mono; [apply keeps_lift|auto]|].
  destruct ws as [|w r]; [triv|]. destruct (String.eqb w "help"); [triv|]. pose proof (warned_tail _ _ _ HW) as HW1.
  kb; [apply keeps_find_tmpl|]. intros [t|] _; [|triv]. kb; [apply keeps_push_hdr|]. intros a _. kb; [apply keeps_read_frame|]. intros fr _.
  kb; [apply keeps_parse_hdr; exact HW1|]. intros [|n pad mask] _; [triv|]. kb; [apply keeps_read_frame|]. intros fr2 _.
  kb; [apply keeps_write; exact I|]. intros _ _. apply IH. apply warned_skipn. auto.
Qed.

Lemma keeps_frame_to_buf : forall fa, keeps ok (m_frame_to_buf fa) (fun _ => True).
Proof.
  intros fa. kb; [apply keeps_get_frame|]. intros f _. kb; [apply keeps_lift|]. intros [f1 b] _. kb; [apply keeps_read_frame|]. intros fr _.
  kb; [apply keeps_store_stack|]. intros _ _. apply keeps_alloc. exact I.
Qed.

Lemma keeps_cmd_destruct : forall c, keeps ok (m_cmd_destruct c) (fun _ => True).
Proof.
  intros c. unfold m_cmd_destruct, m_bfree. kb; [apply keeps_free|]. intros _ _. kb; [apply keeps_free|]. intros _ _. kb; [apply keeps_frame_free|]. intros _ _.
  kb; [apply keeps_free|]. intros. apply keeps_free.
Qed.

Lemma keeps_finish_cmd : forall tab ct name arg0 rep i ws, warned ok ws -> keeps ok (m_finish_cmd tab ct name arg0 rep i ws) (fun _ => True).
Proof.
  intros tab ct name arg0 rep i ws HW. kb; [apply keeps_alloc; exact I|]. intros fa _.
  kb; [instantiate (1 := fun _ => True); unfold m_argc_frame; destruct (_ <? _); [triv|]; kb; [apply keeps_frame_reset|]; intros _ _; apply keeps_argc_frame_loop; exact HW|].
  intros [[|n]|] _.
  - destruct ct; (kb; [first [apply keeps_frame_free|apply keeps_cmd_destruct]|]; intros; triv).
  - kb; [apply keeps_frame_to_buf|]. intros b _. kb; [apply keeps_read_frame|]. intros fr _. kb; [|intros; triv]. instantiate (1 := fun _ => True).
    destruct (mr_mask fr); [|triv]. kb; [|intros; triv]. instantiate (1 := fun _ => True).
    kb; [apply keeps_get_frame|]. intros f _. kb; [apply keeps_lift|]. intros m _. apply keeps_alloc. exact I.
  - kb; [apply keeps_cmd_destruct|]. intros; triv.
Qed.

Lemma keeps_cmd_frame : forall tab ct name arg0 rep i ws, warned ok ws -> keeps ok (m_cmd_frame tab ct name arg0 rep i ws) (fun _ => True).
Proof.
  intros tab ct name arg0 rep i ws HW. destruct ws as [|w [|a r]]; try (apply keeps_finish_cmd; exact HW). cbn [m_cmd_frame].
  destruct (_ && _); [|apply keeps_finish_cmd; exact HW]. kb; [apply keeps_alloc; exact I|]. intros; triv.
Qed.

Lemma keeps_argc_cmd : forall tab ws, warned ok ws -> keeps ok (m_argc_cmd tab ws) (fun _ => True).
Proof.
  intros tab ws HW. destruct ws as [|w r]; [triv|]. cbn [m_argc_cmd]. destruct (cmd_word w) as [ct|]; [|destruct (String.eqb w "help"); triv].
  pose proof (warned_tail _ _ _ HW) as HW1. destruct r as [|a r2]; [triv|]. pose proof (warned_tail _ _ _ HW1) as HW2.
  destruct ct; try (kb; [apply keeps_alloc; exact I|]; intros n _; apply keeps_cmd_frame; exact HW2).
  all: try (apply keeps_cmd_frame; exact HW1).
  kb; [apply keeps_alloc; exact I|]. intros n _. destruct r2 as [|x r3]; [eapply keeps_mono; [apply keeps_lift|auto]|].
  destruct (_ || _); [|apply keeps_cmd_frame; exact HW2]. destruct r3 as [|k r4]; [eapply keeps_mono; [apply keeps_lift|auto]|].
  apply keeps_cmd_frame. eapply warned_tail, warned_tail. exact HW2.
Qed.

Lemma keeps_argc_cmds_loop : forall tab k ws, warned ok ws -> keeps ok (m_argc_cmds_loop tab k ws) (fun _ => True).
Proof.
  induction k as [|k IH]; intros ws HW; destruct ws as [|w r]; cbn [m_argc_cmds_loop]; try triv.
  kb; [apply keeps_argc_cmd; exact HW|]. intros [| |n c] _; try triv. kb; [apply IH; apply warned_skipn; exact HW|]. intros; triv.
Qed.

Lemma keeps_find_named : forall n cs, keeps ok (m_find_named n cs) (fun _ => True).
Proof.
  induction cs as [|c cs IH]; cbn [m_find_named]; [triv|]. destruct (mc_type c), (mc_buf c), (mc_name c); try exact IH.
  kb; [apply keeps_read_str|]. intros m _. destruct (String.eqb m n); [triv|exact IH].
Qed.

Lemma keeps_pair_loop : forall rest pre, keeps ok (m_pair_loop pre rest) (fun _ => True).
Proof.
  induction rest as [|c r IH]; intros pre; cbn [m_pair_loop]; [triv|].
  kb; [|intros [c' e] _; kb; [apply IH|]; intros [cs e'] _; triv]. instantiate (1 := fun _ => True). unfold m_pair_one.
  assert (HN : forall na : addr, keeps ok (n <~ read_str na;; o <~ m_find_named n (pre ++ c :: r);;
      match o with
      | Some d => f <~ m_frame_clone (mc_frame d);; b <~ m_bclone (mc_buf d);; m <~ m_bclone (mc_mask d);;
          ret (MkMCmd (mc_type c) (mc_name c) (mc_arg0 c) f b m (mc_done c) (mc_repeat c), 0)
      | None => ret (c, 1)
      end) (fun _ => True)).
  { intros na. kb; [apply keeps_read_str|]. intros n _. kb; [apply keeps_find_named|]. intros [d|] _; [|triv].
    kb; [apply keeps_frame_clone|]. intros f _. kb; [apply keeps_bclone|]. intros b _. kb; [apply keeps_bclone|]. intros; triv. }
  destruct (mc_type c), (mc_name c), (mc_buf c); first [triv|apply HN].
Qed.

Lemma keeps_cleanup : forall cs, keeps ok (m_cleanup cs) (fun _ => True).
Proof. induction cs as [|c cs IH]; cbn [m_cleanup]; [triv|]. kb; [apply keeps_cmd_destruct|]. intros; exact IH. Qed.

Lemma keeps_load_fields : forall fs, Forall vcell fs -> keeps ok (m_load_fields fs) (Forall mcell).
Proof.
  induction fs as [|f fs IH]; intros HF; cbn [m_load_fields]; [apply keeps_ret; constructor|].
  kb; [apply keeps_new_buf|]. intros d _. kb; [apply keeps_new_buf|]. intros v _. kb; [apply IH; exact (Forall_inv_tail HF)|]. intros l HL.
  apply keeps_ret. constructor; [exact (Forall_inv HF)|exact HL].
Qed.

Lemma keeps_load_all : forall hs, Forall (fun h => Forall vcell (h_fields h)) hs -> keeps ok (m_load_all hs) (fun _ => True).
Proof.
  induction hs as [|h hs IH]; intros HF; cbn [m_load_all]; [triv|]. kb; [|intros a _; kb; [apply IH; exact (Forall_inv_tail HF)|]; intros; triv].
  instantiate (1 := fun _ => True). kb; [apply keeps_load_fields; exact (Forall_inv HF)|]. intros l HL.
  kb; [|intros p _; apply keeps_place; exact I]. instantiate (1 := fun _ => True). destruct (h_fields h); [triv|].
  kb; [apply keeps_place; exact HL|]. intros; triv.
Qed.

Lemma keeps_uninit : forall skip l, keeps ok (m_uninit skip l) (fun _ => True).
Proof.
  induction l as [|a l IH]; cbn [m_uninit]; [triv|]. kb; [apply keeps_read_hdr|]. intros h _. kb; [|intros; exact IH].
  instantiate (1 := fun _ => True). destruct (skip (mh_name h)); [triv|]. kb; [apply keeps_read_hdr|]. intros h' _.
  destruct (mh_fields h'); [|triv]. kb; [apply keeps_read_fields|]. intros cl _. clear. induction cl as [|c cl IH]; cbn [m_uninit_loop]; [triv|].
  kb; [apply keeps_free|]. intros; exact IH.
Qed.

End Keeps.

Lemma tmpls_vcell : Forall (fun h => Forall vcell (h_fields h)) hdr_tmpls.
Proof.
  assert (E : forallb (fun h => forallb (fun f => match f_parser f with
      FP_coap_token => String.eqb (f_name f) "token" | FP_field_hex => String.eqb (f_name f) "meg_id" | _ => true end) (h_fields h)) hdr_tmpls = true)
    by (vm_compute; reflexivity).
  apply Forall_forall. intros h HH. apply Forall_forall. intros f HF. rewrite forallb_forall in E. specialize (E h HH). rewrite forallb_forall in E.
  specialize (E f HF). cbn beta in E. split; intros EP; rewrite EP in E; apply String.eqb_eq; auto.
Qed.

Opaque hdr_tmpls.

Lemma keeps_process : forall ok ws, warned ok ws -> keeps ok (m_process ws) (fun _ => True).
Proof.
  intros ok ws HW. unfold m_process. eapply keeps_bind; [apply keeps_load_all; exact tmpls_vcell|]. intros tab _.
  eapply keeps_bind; [|intros r _; eapply keeps_bind; [apply keeps_uninit|]; intros; apply keeps_ret; exact I].
  instantiate (1 := fun _ => True). unfold m_argc_cmds. eapply keeps_bind; [unfold m_parse_cmds; apply keeps_argc_cmds_loop; exact HW|].
  intros [cs|] _; [|apply keeps_ret; exact I]. eapply keeps_bind; [apply keeps_pair_loop|]. intros [cs' e] _.
  eapply keeps_bind; [apply keeps_cleanup|]. intros; apply keeps_ret; exact I.
Qed.

Lemma process_lost : forall ws r H a, m_process ws [] = MRet r H -> lost H a -> may_lose ws.
Proof.
  intros ws r H a E [b HB]. destruct (keeps_process (may_lose ws) ws (fun x => x) [] r H) as [HW _]; [constructor|exact E|].
  pose proof (wf_nth _ _ _ _ HW HB) as HN. cbn in HN. tauto.
Qed.

Lemma process_left : forall ws cs, parse_cmds ws = Ret (Some cs) ->
  exists tab H, m_process ws [] = MRet true H /\
    forall a, malloced H a -> (exists n, In n forgotten /\ of_template H tab n a) \/ lost H a /\ may_lose ws.
Proof.
  intros ws cs E. destruct (process_released ws cs E) as (tab & H & EP & HR). exists tab, H. split; auto.
  intros a [HA|HA]; [left; apply HR; exact HA|right; split; auto; eapply process_lost; eauto].
Qed.

Transparent hdr_tmpls.

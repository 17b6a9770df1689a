(** Proofs about all the processes and what they do (C89). *)

From Verif Require Import BaseFacts SpecForest PMain PForest.

Lemma crowd_runs : forall args fk sur l m caps ws cs, crowd args fk sur = Ret l -> getopt args = ORun m caps ws -> parse_cmds ws = Ret (Some cs) ->
  l = map (fun p => (fst (fst p), carry_on m cs (sur (fst (fst p))) (snd (fst p)) (snd p)))
        (launch fk [] 0 [] (map new_capture caps) (map (fun c => Remove (snd (capture_add c))) caps)).
Proof. intros args fk sur l m caps ws cs H HG HP. unfold crowd in H. rewrite HG, HP in H. cbn [bind] in H. apply ret_inj in H. auto. Qed.

(** C89_processes *)
Lemma crowd_processes : forall args fk sur l m caps ws cs, crowd args fk sur = Ret l -> getopt args = ORun m caps ws -> parse_cmds ws = Ret (Some cs) ->
  NoDup (map fst l) /\ forall who, In who (map fst l) <-> process fk (length caps) who.
Proof.
  intros args fk sur l m caps ws cs H HG HP. rewrite (crowd_runs _ _ _ _ _ _ _ _ H HG HP). rewrite map_map. cbn [fst]. split; [apply launch_once|].
  intros who. rewrite launch_processes, map_length. reflexivity.
Qed.

(** C89_doubled *)
Lemma crowd_doubled : forall args fk sur l m caps ws cs, crowd args fk sur = Ret l -> getopt args = ORun m caps ws -> parse_cmds ws = Ret (Some cs) ->
  (forall who i, exists p, fk who i = Worked p false) -> length l = (2 ^ length caps)%nat.
Proof.
  intros args fk sur l m caps ws cs H HG HP HF. rewrite (crowd_runs _ _ _ _ _ _ _ _ H HG HP). rewrite map_length, launch_double by auto. rewrite map_length. reflexivity.
Qed.

(** What is done before the commands is nothing that the commands do. *)
Definition no_event (a : action) : Prop := match a with Happens _ | Kill _ _ => False | _ => True end.
Lemma launch_acts : forall fk todo who i done acts w cps acts', Forall no_event acts -> In (w, cps, acts') (launch fk who i done todo acts) -> Forall no_event acts'.
Proof.
  intros fk. induction todo as [|c todo IH]; intros who i done acts w cps acts' HA H; cbn [launch] in H.
  - destruct H as [H|[]]. apply pair_inj in H. destruct H as [_ <-]. exact HA.
  - destruct (fk who i) as [|p b]; [eapply IH; eauto|]. destruct b; [eapply IH; [|eauto]; apply Forall_app; split; [exact HA|constructor; [exact I|constructor]]|].
    apply in_app_or in H. destruct H as [H|H]; [eapply IH; eauto|]. exact (IH _ _ _ _ _ _ _ (Forall_nil _) H).
Qed.

Lemma happened_app : forall a b, happened (a ++ b) = happened a ++ happened b.
Proof. intros. unfold happened. apply flat_map_app. Qed.
Lemma happened_none : forall l, (forall a, In a l -> match a with Happens _ => False | _ => True end) -> happened l = [].
Proof. intros l H. unfold happened. induction l as [|a l IH]; [reflexivity|]. cbn [flat_map]. rewrite IH by (intros b Hb; apply H; right; exact Hb). specialize (H a (or_introl eq_refl)). destruct a; auto. destruct H. Qed.
Lemma happened_map : forall ev, happened (map Happens ev) = ev.
Proof. intros ev. unfold happened. induction ev as [|e ev IH]; [reflexivity|]. cbn [map flat_map]. rewrite IH. reflexivity. Qed.

Lemma carry_on_parts : forall m cs s cps acts, Forall no_event acts ->
  match exec_cmds cs (env_of m s) with
  | Ret (r, ev) => exists rest, carry_on m cs s cps acts = Ret (exit_status r, rest) /\ happened rest = ev /\
      forall p sig, In (Kill p sig) rest <-> In (p, sig) (snd (capture_all_stop (s_before s) (s_int s) (s_term s) cps))
  | Crash c => carry_on m cs s cps acts = Crash c
  end.
Proof.
  intros m cs s cps acts HA. unfold carry_on. destruct (exec_cmds cs (env_of m s)) as [[r ev]|c]; cbn [bind]; [|reflexivity].
  destruct (capture_all_stop _ _ _ _) as [x sigs]. cbn [snd]. eexists. split; [reflexivity|]. split.
  - rewrite !happened_app, happened_map, (happened_none acts), (happened_none (map (fun k : Z * Z => Kill (fst k) (snd k)) sigs)).
    + destruct (_ && _); cbn; rewrite app_nil_r; reflexivity.
    + intros a Ha. apply in_map_iff in Ha. destruct Ha as (k & <- & _). exact I.
    + intros a Ha. rewrite Forall_forall in HA. specialize (HA a Ha). destruct a; auto.
  - intros p sig. rewrite !in_app_iff. split.
    + intros [H|[H|[H|H]]].
      * rewrite Forall_forall in HA. destruct (HA _ H).
      * apply in_map_iff in H. destruct H as (k & H & _). discriminate H.
      * destruct (_ && _); [destruct H as [H|[]]; discriminate H|destruct H].
      * apply in_map_iff in H. destruct H as ([q sg] & H & Hk). cbn [fst snd] in H. assert (q = p) by congruence. assert (sg = sig) by congruence. subst. exact Hk.
    + intros H. right. right. right. apply in_map_iff. exists (p, sig). auto.
Qed.

Lemma removes_no_event : forall caps, Forall no_event (map (fun c => Remove (snd (capture_add c))) caps).
Proof. intros caps. apply Forall_forall. intros a Ha. apply in_map_iff in Ha. destruct Ha as (c & <- & _). exact I. Qed.

Lemma crowd_in : forall args fk sur l m caps ws cs who o, crowd args fk sur = Ret l -> getopt args = ORun m caps ws -> parse_cmds ws = Ret (Some cs) -> In (who, o) l ->
  exists cps acts, cps = map (fun x => known fk who (fst x) (snd x)) (combine (seq 0 (length caps)) (map new_capture caps)) /\ Forall no_event acts /\ o = carry_on m cs (sur who) cps acts.
Proof.
  intros args fk sur l m caps ws cs who o H HG HP Hin. rewrite (crowd_runs _ _ _ _ _ _ _ _ H HG HP) in Hin. apply in_map_iff in Hin. destruct Hin as ([[w cps] acts] & E & Hin). cbn [fst snd] in E.
  apply pair_inj in E. destruct E as [-> <-]. exists cps, acts. split; [|split; [|reflexivity]].
  - apply launch_known in Hin; [|intros j []]. rewrite map_length in Hin. exact Hin.
  - eapply launch_acts; [|exact Hin]. apply removes_no_event.
Qed.

(** C89_tests *)
Lemma crowd_tests : forall args fk sur l m caps ws cs who o, crowd args fk sur = Ret l -> getopt args = ORun m caps ws -> parse_cmds ws = Ret (Some cs) -> In (who, o) l ->
  match exec_cmds cs (env_of m (sur who)) with
  | Ret (r, ev) => exists acts, o = Ret (exit_status r, acts) /\ happened acts = ev
  | Crash c => o = Crash c
  end.
Proof.
  intros args fk sur l m caps ws cs who o H HG HP Hin. destruct (crowd_in _ _ _ _ _ _ _ _ _ _ H HG HP Hin) as (cps & acts & _ & HA & ->).
  pose proof (carry_on_parts m cs (sur who) cps acts HA) as X. destruct (exec_cmds cs (env_of m (sur who))) as [[r ev]|c]; [|exact X].
  destruct X as (rest & E & Eh & _). exists rest. auto.
Qed.

(** Captures that are believed to run. *)
Lemma child_exit_others : forall p st cs c, In c cs -> cap_pid c <> p -> In c (child_exit p st cs).
Proof.
  intros p st cs c. induction cs as [|d cs IH]; intros H Hp; [destruct H|]. cbn [child_exit]. destruct (cap_pid d =? p) eqn:E.
  - destruct H as [->|H]; [lia|]. destruct st; right; exact H.
  - destruct H as [->|H]; [left; reflexivity|right; auto].
Qed.
Lemma child_exit_running : forall p st cs c, In c (child_exit p st cs) -> cap_running c = true -> In c cs.
Proof.
  intros p st cs c. induction cs as [|d cs IH]; intros H Hr; cbn [child_exit] in H; [destruct H|]. destruct (cap_pid d =? p) eqn:E.
  - destruct st; (destruct H as [<-|H]; [discriminate Hr|right; exact H]).
  - destruct H as [->|H]; [left; reflexivity|right; auto].
Qed.
Lemma reap_others : forall evs cs c, In c cs -> ~ In (cap_pid c) (map fst evs) -> In c (reap evs cs).
Proof.
  unfold reap. induction evs as [|[p st] evs IH]; intros cs c H Hn; [exact H|]. cbn [fold_left fst snd map In] in *. apply IH; [|tauto]. apply child_exit_others; [exact H|]. intros E. apply Hn. left. auto.
Qed.
Lemma reap_still : forall evs cs c, In c (reap evs cs) -> cap_running c = true -> In c cs.
Proof.
  unfold reap. induction evs as [|[p st] evs IH]; intros cs c H Hr; [exact H|]. cbn [fold_left fst snd] in H. apply IH in H; [|exact Hr]. eapply child_exit_running; eauto.
Qed.

Lemma in_combine_seq : forall {A} (l : list A) i j x, In (j, x) (combine (seq i (length l)) l) <-> (i <= j)%nat /\ nth_error l (j - i) = Some x.
Proof.
  intros A. induction l as [|a l IH]; intros i j x; cbn [length seq combine].
  - split; [intros []|intros [_ H]; destruct (j - i)%nat; discriminate H].
  - cbn [In]. rewrite IH. split.
    + intros [H|[H1 H2]]; [assert (i = j) by congruence; assert (a = x) by congruence; subst; split; [lia|]; rewrite Nat.sub_diag; reflexivity|]. split; [lia|]. replace (j - i)%nat with (S (j - S i)) by lia. exact H2.
    + intros [H1 H2]. destruct (Nat.eq_dec i j) as [->|Hne]; [left; rewrite Nat.sub_diag in H2; cbn in H2; congruence|]. right. split; [lia|]. replace (j - i)%nat with (S (j - S i)) in H2 by lia. exact H2.
Qed.

Lemma nth_new : forall caps j x, nth_error (map new_capture caps) j = Some x -> cap_running x = false /\ (j < length caps)%nat.
Proof.
  intros caps j x H. rewrite nth_error_map in H. destruct (nth_error caps j) as [c|] eqn:E; [|discriminate H]. cbn in H. apply some_inj in H. subst x. split; [reflexivity|]. apply nth_error_Some. congruence.
Qed.

(** C89_signals *)
Lemma crowd_signals : forall args fk sur l m caps ws cs who st acts p, crowd args fk sur = Ret l -> getopt args = ORun m caps ws -> parse_cmds ws = Ret (Some cs) -> In (who, Ret (st, acts)) l ->
  (In (Kill (Zpos p) SIGINT) acts -> exists j x, (j < length caps)%nat /\ ~ In j who /\ fk (back_then who j) j = Worked p x) /\
  (forall j x, (j < length caps)%nat -> ~ In j who -> fk (back_then who j) j = Worked p x -> ~ In (Zpos p) (map fst (s_before (sur who))) -> In (Kill (Zpos p) SIGINT) acts).
Proof.
  intros args fk sur l m caps ws cs who st acts p H HG HP Hin. destruct (crowd_in _ _ _ _ _ _ _ _ _ _ H HG HP Hin) as (cps & acts0 & HC & HA & E).
  pose proof (carry_on_parts m cs (sur who) cps acts0 HA) as X. destruct (exec_cmds cs (env_of m (sur who))) as [[r ev]|c]; [|rewrite X in E; discriminate E].
  destruct X as (rest & E' & _ & HK). rewrite E' in E. apply ret_inj, pair_inj in E. destruct E as [_ <-]. split.
  - rewrite HK. unfold capture_all_stop. cbn [snd]. rewrite in_app_iff. unfold signal_running. rewrite !in_map_iff. intros [(c & Ec & Hc)|(c & Ec & Hc)]; [|apply pair_inj in Ec; destruct Ec as [_ Ec]; discriminate Ec]. apply filter_In in Hc. destruct Hc as [Hc Hr]. apply reap_still in Hc; [|exact Hr]. apply pair_inj in Ec. destruct Ec as [Ec _].
    rewrite HC in Hc. apply in_map_iff in Hc. destruct Hc as ([j c0] & <- & Hj). cbn [fst snd] in *. rewrite <- (map_length new_capture caps) in Hj. apply in_combine_seq in Hj. destruct Hj as [_ Hj]. rewrite Nat.sub_0_r in Hj.
    apply nth_new in Hj. destruct Hj as [Hnr Hj]. unfold known in Hr, Ec. destruct (existsb (Nat.eqb j) who) eqn:Ew; [congruence|]. unfold capture_start in Hr, Ec.
    destruct (fk (back_then who j) j) as [|q x] eqn:Ef; cbn [result] in Hr, Ec; [cbn in Hr; congruence|]. replace (0 <? Z.pos q) with true in Ec by lia. cbn [cap_pid] in Ec. exists j, x. split; [exact Hj|]. split; [|congruence].
    intros HI. assert (existsb (Nat.eqb j) who = true) by (apply existsb_exists; exists j; split; [exact HI|apply Nat.eqb_refl]). congruence.
  - intros j x Hj Hn Hf Hb. rewrite HK. unfold capture_all_stop. cbn [snd]. rewrite in_app_iff. unfold signal_running. rewrite !in_map_iff. left. destruct (nth_error (map new_capture caps) j) as [c0|] eqn:Ec0; [|apply nth_error_None in Ec0; rewrite map_length in Ec0; lia].
    exists (known fk who j c0). assert (Hk : known fk who j c0 = MkCap (cap_cmd c0) (Zpos p) true (cap_success c0)).
    { unfold known. destruct (existsb (Nat.eqb j) who) eqn:Ew; [exfalso; apply existsb_exists in Ew; destruct Ew as (i & Hi & Ei); apply Nat.eqb_eq in Ei; subst i; exact (Hn Hi)|]. rewrite Hf. reflexivity. }
    split; [rewrite Hk; reflexivity|]. apply filter_In. split; [|rewrite Hk; reflexivity]. apply reap_others; [|rewrite Hk; exact Hb]. rewrite HC. apply in_map_iff. exists (j, c0). split; [reflexivity|].
    rewrite <- (map_length new_capture caps). apply in_combine_seq. split; [lia|]. rewrite Nat.sub_0_r. exact Ec0.
Qed.

(** C89_single *)
Lemma starts_single : forall (fk : forkings) (caps : list string) i, (forall k, (i <= k)%nat -> (k < i + length caps)%nat -> forall p, fk [] k <> Worked p false) ->
  flat_map (fun x => match fk [] (fst x) with Worked p _ => [Start (cap_cmd (snd x)) (Zpos p)] | Failed => [] end) (combine (seq i (length (map new_capture caps))) (map new_capture caps))
  = starts (capture_all_start (map (fun k => result (fk [] k)) (seq i (length (map new_capture caps)))) (map new_capture caps)).
Proof.
  intros fk. induction caps as [|c caps IH]; intros i H; cbn [map length seq combine flat_map capture_all_start fst snd]; [reflexivity|].
  unfold starts. cbn [flat_map]. fold (starts (capture_all_start (map (fun k => result (fk [] k)) (seq (S i) (length (map new_capture caps)))) (map new_capture caps))).
  rewrite IH by (intros k H1 H2; apply H; cbn [length]; lia). f_equal. destruct (fk [] i) as [|p b]; reflexivity.
Qed.

Lemma all_start_nth : forall cs pids f i, (forall k, (k < length cs)%nat -> nth k pids (-1) = f (i + k)%nat) -> capture_all_start pids cs = capture_all_start (map f (seq i (length cs))) cs.
Proof.
  induction cs as [|c cs IH]; intros pids f i H; cbn [length seq map capture_all_start]; [destruct pids; reflexivity|].
  pose proof (H 0%nat ltac:(cbn [length]; lia)) as H0. rewrite Nat.add_0_r in H0. destruct pids as [|p pids]; cbn [nth] in H0.
  - rewrite <- H0. change (capture_start (-1) c) with c. f_equal. rewrite <- (IH [] f (S i)); [destruct cs; reflexivity|]. intros k Hk. specialize (H (S k) ltac:(cbn [length]; lia)). cbn [nth] in H. replace (S i + k)%nat with (i + S k)%nat by lia. rewrite <- H. destruct k; reflexivity.
  - rewrite <- H0. cbn [capture_all_start]. f_equal. apply IH. intros k Hk. specialize (H (S k) ltac:(cbn [length]; lia)). cbn [nth] in H. replace (S i + k)%nat with (i + S k)%nat by lia. exact H.
Qed.

Lemma all_start_length : forall cs pids, length (capture_all_start pids cs) = length cs.
Proof. induction cs as [|c cs IH]; intros pids; destruct pids; cbn [capture_all_start length]; auto. Qed.

Lemma crowd_single : forall args fk sur l, crowd args fk sur = Ret l -> (forall i p, fk [] i <> Worked p false) ->
  (forall m caps ws i, getopt args = ORun m caps ws -> (i < length caps)%nat -> nth i (s_pids (sur [])) (-1) = match fk [] i with Worked p _ => Zpos p | Failed => -1 end) ->
  l = [([], session args (sur []))].
Proof.
  intros args fk sur l H HF HN. unfold crowd in H. destruct (getopt args) as [caps|caps|m caps ws] eqn:HG; [apply ret_inj in H; auto|apply ret_inj in H; auto|].
  destruct (parse_cmds ws) as [[cs|]|c] eqn:HP; cbn [bind] in H; [|apply ret_inj in H; auto|discriminate H]. apply ret_inj in H. subst l.
  rewrite launch_single by (intros k p _; apply HF). cbn [map fst snd app]. do 2 f_equal. unfold session. rewrite HG, HP. cbn [bind]. unfold carry_on.
  destruct (exec_cmds cs (env_of m (sur []))) as [[r ev]|c]; cbn [bind]; [|reflexivity].
  rewrite starts_single by (intros; apply HF). rewrite (all_start_nth (map new_capture caps) (s_pids (sur [])) (fun k => result (fk [] k)) 0) by (intros k Hk; rewrite map_length in Hk; exact (HN m caps ws k eq_refl Hk)).
  destruct (capture_all_stop _ _ _ _) as [x sigs]. unfold zlen. rewrite all_start_length, map_length. rewrite <- !app_assoc. reflexivity.
Qed.

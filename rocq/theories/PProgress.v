(** Proofs about how far an execution has come (C93). *)

From Verif Require Import BaseFacts SpecProgress PSockets PSockets2 PSockets3 PSockets4 PSockets5 PSockets6 PSockets7 PParse PCmd PPair PRecv PQuiet PTotal.

(** *** Work that is left *)
Definition cost (x : instr) : Z :=
  match x with
  | Socket _ => 10007 | Lookup _ _ => 10006 | Lookup2 _ _ _ => 10005 | Bind _ _ _ _ => 10004 | Promisc _ _ _ => 10003 | Auxdata _ _ => 10002
  | Drain _ _ n => 1 + Z.of_nat n
  | _ => 1
  end.
Definition work (c : list instr) : Z := fold_right (fun x w => cost x + w) 0 c.

Lemma drain_cost : Z.of_nat drain_turns = 10000.
Proof. unfold drain_turns. rewrite Z2Nat.id; lia. Qed.

Lemma cost_pos : forall x, 1 <= cost x.
Proof. destruct x; cbn [cost]; lia. Qed.
Lemma work_pos : forall c, 0 <= work c.
Proof. induction c as [|x c IH]; cbn [work fold_right]; [lia|]. pose proof (cost_pos x). unfold work in IH. lia. Qed.
Lemma work_cons : forall x c, work (x :: c) = cost x + work c.
Proof. auto. Qed.
Lemma work_app : forall a b, work (a ++ b) = work a + work b.
Proof. induction a as [|x a IH]; intros b; [auto|]. cbn [app]. rewrite !work_cons, IH. lia. Qed.
Lemma work_ones : forall (f : nat -> instr) l, (forall i, cost (f i) = 1) -> work (map f l) = Z.of_nat (length l).
Proof. intros f l H. induction l as [|i l IH]; [auto|]. cbn [map length]. rewrite work_cons, IH, H. lia. Qed.

Lemma go_work : forall r m x rest m1 ev, go r m x rest = Some (m1, ev) -> work (m_code m1) + 1 <= work (x :: rest).
Proof.
  intros r m x rest m1 ev H. pose proof (work_pos rest) as WP. pose proof drain_cost as DC. rewrite work_cons. destruct x; cbn [go] in H; cbn [cost];
  repeat match type of H with context [match ?t with _ => _ end] => destruct t eqn:?; try discriminate H end; apply some_inj, pair_inj in H; destruct H as [<- <-];
  cbn [m_code with_code with_socks]; rewrite ?work_cons; cbn [cost]; try (change (work []) with 0); lia.
Qed.

Lemma step_rs : forall ch m m1 ev, step ch m = Some (m1, ev) -> length (m_rs m1) = length (m_rs m).
Proof.
  intros ch m m1 ev H. destruct ch as [ix x|r|sel late ready wr send]; cbn [step] in H.
  - destruct (0 <? ix); [|discriminate H]. apply some_inj, pair_inj in H. destruct H as [<- <-]. auto.
  - destruct (m_code m) as [|x rest]; [discriminate H|]. destruct x; cbn [go] in H;
    repeat match type of H with context [match ?t with _ => _ end] => destruct t eqn:?; try discriminate H end; apply some_inj, pair_inj in H; destruct H as [<- <-]; auto.
    cbn [m_rs]. eapply process_length; eauto.
  - destruct (m_code m) as [|[] rest]; try discriminate H. unfold wake in H. repeat match type of H with context [if ?t then _ else _] => destruct t eqn:?; try discriminate H end; apply some_inj, pair_inj in H; destruct H as [<- <-]; auto.
Qed.

Lemma filter_length_le : forall A (f : A -> bool) l, (length (filter f l) <= length l)%nat.
Proof. intros A f l. induction l as [|x l IH]; [auto|]. cbn [filter]. destruct (f x); cbn [length]; lia. Qed.

Lemma wake_work : forall sel late ready wr send m m1 ev, step (Wake sel late ready wr send) m = Some (m1, ev) ->
  work (m_code m1) <= work (m_code m) + Z.of_nat (length (m_rs m)) + 1 /\ (late || (sel <=? 0) = true -> work (m_code m1) + 1 = work (m_code m)).
Proof.
  intros sel late ready wr send m m1 ev H. cbn [step] in H. destruct (m_code m) as [|[] rest]; try discriminate H. unfold wake in H. destruct (existsb _ _); [|discriminate H]. destruct (late || (sel <=? 0)).
  - apply some_inj, pair_inj in H. destruct H as [<- <-]. cbn [m_code]. rewrite work_cons. cbn [cost]. lia.
  - destruct (forallb _ _); [|discriminate H]. apply some_inj, pair_inj in H. destruct H as [<- <-]. cbn [m_code with_code]. rewrite work_app, !work_cons, work_ones by auto. cbn [cost]. pose proof (filter_length_le _ ready (seq 0 (length (m_rs m)))) as L. rewrite seq_length in L. split; [lia|discriminate].
Qed.

Lemma count_cons : forall f c sch, count f (c :: sch) = (if f c then 1 else 0) + count f sch.
Proof. intros f c sch. unfold count. cbn [filter]. destruct (f c); cbn [length]; lia. Qed.

Lemma run_steps : forall sch m m2 tr, run sch m = Some (m2, tr) -> count own_step sch + work (m_code m2) <= work (m_code m) + (Z.of_nat (length (m_rs m)) + 2) * count is_wake sch.
Proof.
  induction sch as [|ch sch IH]; intros m m2 tr H; cbn [run] in H.
  - apply some_inj, pair_inj in H. destruct H as [<- <-]. unfold count. cbn. lia.
  - destruct (step ch m) as [[ma ea]|] eqn:E1; [|discriminate]. destruct (run sch ma) as [[mb eb]|] eqn:E2; [|discriminate]. apply some_inj, pair_inj in H. destruct H as [<- <-]. specialize (IH _ _ _ E2). pose proof (step_rs _ _ _ _ E1) as L. rewrite L in IH. rewrite !count_cons.
    destruct ch as [ix x|r|sel late ready wr send]; cbn [own_step is_wake].
    + cbn [step] in E1. destruct (0 <? ix); [|discriminate E1]. apply some_inj, pair_inj in E1. destruct E1 as [<- <-]. cbn [m_code with_socks] in IH. lia.
    + cbn [step] in E1. destruct (m_code m) as [|x rest]; [discriminate E1|]. apply go_work in E1. lia.
    + apply wake_work in E1. lia.
Qed.

Lemma run_deadline : forall sch m m2 tr, run sch m = Some (m2, tr) -> Forall time_up sch -> count own_step sch + work (m_code m2) <= work (m_code m).
Proof.
  induction sch as [|ch sch IH]; intros m m2 tr H F; cbn [run] in H.
  - apply some_inj, pair_inj in H. destruct H as [<- <-]. unfold count. cbn. lia.
  - destruct (step ch m) as [[ma ea]|] eqn:E1; [|discriminate]. destruct (run sch ma) as [[mb eb]|] eqn:E2; [|discriminate]. apply some_inj, pair_inj in H. destruct H as [<- <-]. specialize (IH _ _ _ E2 (Forall_inv_tail F)). apply Forall_inv in F. rewrite !count_cons.
    destruct ch as [ix x|r|sel late ready wr send]; cbn [own_step].
    + cbn [step] in E1. destruct (0 <? ix); [|discriminate E1]. apply some_inj, pair_inj in E1. destruct E1 as [<- <-]. cbn [m_code with_socks] in IH. lia.
    + cbn [step] in E1. destruct (m_code m) as [|x rest]; [discriminate E1|]. apply go_work in E1. lia.
    + apply wake_work in E1. cbn [time_up] in F. destruct E1 as [_ E1]. specialize (E1 F). lia.
Qed.

(** *** What is left is bounded *)
Lemma work_socket : forall l, work (map Socket l) = 10007 * Z.of_nat (length l).
Proof. induction l as [|i l IH]; [auto|]. cbn [map length]. rewrite work_cons, IH. cbn [cost]. lia. Qed.
Lemma work_closes : forall n, work (closes n) = Z.of_nat n.
Proof. intros n. unfold closes. rewrite work_ones by auto. rewrite seq_length. auto. Qed.
Lemma work_more : forall i n, (i <= n)%nat -> work (more i n) = 10007 * Z.of_nat (n - i) + 1 + Z.of_nat n.
Proof. intros i n H. unfold more, tail. rewrite work_app, work_cons, work_socket, work_closes, seq_length. cbn [cost]. lia. Qed.

Lemma nodup_below : forall n l, NoDup l -> (forall i, In i l -> (i < n)%nat) -> (length l <= n)%nat.
Proof. intros n l H B. rewrite <- (seq_length n 0). apply NoDup_incl_length; [auto|]. intros i Hi. apply in_seq. specialize (B i Hi). lia. Qed.

Definition drains_less (c : list instr) : Prop := forall i fd d, In (Drain i fd d) c -> Z.of_nat d <= 10000.

Lemma step_drains : forall ch m m1 ev, drains_less (m_code m) -> step ch m = Some (m1, ev) -> drains_less (m_code m1).
Proof.
  intros ch m m1 ev D H. pose proof drain_cost as DC. destruct ch as [ix x|r|sel late ready wr send]; cbn [step] in H.
  - destruct (0 <? ix); [|discriminate H]. apply some_inj, pair_inj in H. destruct H as [<- <-]. auto.
  - destruct (m_code m) as [|x rest] eqn:EC; [discriminate H|]. assert (DR : drains_less rest) by (intros i fd d X; eapply D; right; eauto).
    destruct x; cbn [go] in H; repeat match type of H with context [match ?t with _ => _ end] => destruct t eqn:?; try discriminate H end; apply some_inj, pair_inj in H; destruct H as [<- <-]; cbn [m_code with_code with_socks]; auto;
    intros i' fd' d' X; repeat (destruct X as [X|X]); try discriminate X; try (eapply DR; exact X).
    all: try solve [destruct X]; injection X as <- <- <-; try lia; specialize (D _ _ _ (or_introl eq_refl)); lia.
  - destruct (m_code m) as [|[] rest] eqn:EC; try discriminate H. assert (DR : drains_less rest) by (intros i fd d X; eapply D; right; eauto). unfold wake in H. repeat match type of H with context [if ?t then _ else _] => destruct t eqn:?; try discriminate H end; apply some_inj, pair_inj in H; destruct H as [<- <-]; cbn [m_code with_code]; auto.
    intros i fd d X. apply in_app_or in X. destruct X as [X|[X|[X|X]]]; try discriminate X; [|eapply DR; eauto]. apply in_map_iff in X. destruct X as [? [X _]]. discriminate X.
Qed.

Lemma begin_drains : forall rs, drains_less (m_code (begin rs)).
Proof.
  intros rs i fd d X. cbn [begin m_code] in X. apply in_app_or in X. destruct X as [X|[X|X]]; try discriminate X; apply in_map_iff in X; destruct X as [? [X _]]; discriminate X.
Qed.

Lemma run_left_work : forall rs sch m tr, run sch (begin rs) = Some (m, tr) -> work (m_code m) <= 10008 * Z.of_nat (length rs) + 2.
Proof.
  intros rs sch m tr H. destruct (run_sound _ _ _ _ H) as [HA _]. pose proof (co_at _ _ (ag_course _ _ _ HA)) as AT.
  assert (D : drains_less (m_code m)) by (apply (run_inv (fun _ m => drains_less (m_code m)) (begin rs) (begin_drains rs)) with (sch := sch) (tr := tr); [intros; eapply step_drains; eauto|auto]).
  remember (m_code m) as c. remember (m_fds m) as FD. remember (ids m) as I. remember (m_got m) as G. remember (length rs) as n.
  destruct AT as [i fds rds A1 A2 A3|i fd x fds A1 A2 A3|i fd fds A1 A2|fds l A1 A2|l sel wr send fds gt rds A1 A2 A3 A4|j fds rds A1 A2].
  - rewrite work_more by lia. lia.
  - rewrite work_cons, work_more by lia. assert (cost x <= 10006); [|lia]. destruct A3 as [| | | | |d]; cbn [cost]; try lia. specialize (D _ _ _ (or_introl eq_refl)). lia.
  - rewrite work_cons. cbn [cost]. change (work []) with 0. lia.
  - change (work []) with 0. lia.
  - rewrite work_app, work_ones, work_cons by auto. unfold tail. rewrite work_cons, work_closes. cbn [cost]. assert (length l <= n)%nat; [|lia]. apply nodup_below; [|auto]. clear - A3. induction (map fst gt) as [|x a IH]; [auto|]. cbn [app] in A3. apply NoDup_cons_iff in A3. tauto.
  - rewrite work_ones by auto. rewrite seq_length. lia.
Qed.

(** *** Nothing breaks *)
Record clean (P : rxmsg -> Prop) (m : machine) : Prop := {
  cl_sent : all_sent (m_rounds m);
  cl_fit : Forall (fun rd => forall i x, rd_rx rd i = Some x -> P x) (m_rounds m);
  cl_got : forall p, In p (m_got m) -> P (snd p);
  cl_socks : forall k a, In k (m_socks m) -> In a (k_queue k) -> P (snd a);
  cl_code : forall sel wr send, In (Serve sel wr send) (m_code m) -> forall k, send k = true }.

Lemma all_sent_app : forall a b, all_sent a -> all_sent b -> all_sent (a ++ b).
Proof. intros a b HA HB rd k X. apply in_app_or in X. destruct X; [apply HA|apply HB]; auto. Qed.

Lemma clean_code : forall P m m1, clean P m -> m_rounds m1 = m_rounds m -> m_got m1 = m_got m -> (forall k1 a, In k1 (m_socks m1) -> In a (k_queue k1) -> exists k, In k (m_socks m) /\ In a (k_queue k)) -> (forall sel wr send, In (Serve sel wr send) (m_code m1) -> In (Serve sel wr send) (m_code m)) -> clean P m1.
Proof.
  intros P m m1 [C1 C2 C3 C4 C5] E1 E2 HS HC. constructor; rewrite ?E1, ?E2; auto.
  - intros k1 a H1 H2. destruct (HS _ _ H1 H2) as [k [H3 H4]]. eauto.
  - intros sel wr send X. eauto.
Qed.

Lemma on_sock_in : forall fd f m k1 a, (forall k, In a (k_queue (f k)) -> In a (k_queue k)) -> In k1 (on_sock fd f m) -> In a (k_queue k1) -> exists k, In k (m_socks m) /\ In a (k_queue k).
Proof. intros fd f m k1 a HF H1 H2. apply in_map_iff in H1. destruct H1 as [k [<- H1]]. exists k. split; [auto|]. destruct (_ =? _); auto. Qed.

Lemma got_in : forall l i x, got l i = Some x -> exists p, In p l /\ snd p = x.
Proof. intros l i x H. unfold got in H. destruct (find _ l) as [p|] eqn:E; [|discriminate H]. apply find_some in E. apply some_inj in H. exists p. tauto. Qed.

Lemma sock_of_in : forall fd m k, sock_of fd m = Some k -> In k (m_socks m).
Proof. intros fd m k H. unfold sock_of in H. apply find_some in H. tauto. Qed.

Lemma step_clean : forall (P : rxmsg -> Prop) ch m m1 ev, (forall x, P x -> P (untag x)) -> clean P m -> smooth P ch -> step ch m = Some (m1, ev) -> clean P m1.
Proof.
  intros P ch m m1 ev HP C B H. destruct ch as [ix x|r|sel late ready wr send]; cbn [step smooth] in H, B.
  - destruct (0 <? ix); [|discriminate H]. apply some_inj, pair_inj in H. destruct H as [<- <-]. destruct C as [C1 C2 C3 C4 C5]. constructor; cbn [with_socks m_rounds m_got m_code m_socks]; auto.
    intros k a H1 H2. apply in_map_iff in H1. destruct H1 as [k0 [<- H1]]. unfold enqueue in H2. destruct (_ || _); [|eauto]. cbn [set_queue k_queue] in H2. apply in_app_or in H2. destruct H2 as [H2|[<-|[]]]; eauto.
  - destruct (m_code m) as [|x rest] eqn:EC; [discriminate H|]. assert (SV : forall sel wr send, In (Serve sel wr send) rest -> In (Serve sel wr send) (m_code m)) by (intros; rewrite EC; right; auto).
    destruct x; cbn [go] in H; repeat match type of H with context [match ?t with _ => _ end] => destruct t eqn:?; try discriminate H end; apply some_inj, pair_inj in H; destruct H as [<- <-];
    try solve [apply (clean_code P m); [exact C|reflexivity|reflexivity|cbn [with_socks with_code m_socks]; eauto|cbn [with_socks with_code m_code]; intros ? ? ? X; repeat (destruct X as [X|X]; try discriminate X); first [solve [auto]|destruct X]]].
    all: unfold with_socks, with_code.
    + apply (clean_code P m); [exact C|reflexivity|reflexivity|cbn [m_socks]|cbn [m_code]; intros ? ? ? X; repeat (destruct X as [X|X]; try discriminate X); auto]. intros k1 a X Y. apply in_app_or in X. destruct X as [X|[<-|[]]]; [eauto|destruct Y].
    + apply (clean_code P m); [exact C|reflexivity|reflexivity|cbn [m_socks]|cbn [m_code]; intros ? ? ? X; repeat (destruct X as [X|X]; try discriminate X); auto]. intros k1 a X Y. eapply on_sock_in; [|exact X|exact Y]. auto.
    + apply (clean_code P m); [exact C|reflexivity|reflexivity|cbn [m_socks]|cbn [m_code]; intros ? ? ? X; repeat (destruct X as [X|X]; try discriminate X); auto]. intros k1 a X Y. eapply on_sock_in; [|exact X|exact Y]. auto.
    + destruct C as [C1 C2 C3 C4 C5]. constructor; cbn [m_rounds m_got m_code m_socks]; auto.
      * intros k1 b X Y. apply in_map_iff in X. destruct X as [k [<- X]]. destruct (_ =? _); [|eauto]. cbn [set_queue k_queue] in Y. eapply C4; [eapply sock_of_in; eauto|]. match goal with E : k_queue _ = _ |- _ => rewrite E end. right. auto.
      * intros ? ? ? X. destruct X as [X|X]; [discriminate X|]. eauto.
    + apply (clean_code P m); [exact C|reflexivity|reflexivity|cbn [m_socks]|cbn [m_code]; intros ? ? ? []]. intros k1 a X Y. unfold without in X. apply filter_In in X. exists k1. tauto.
    + destruct C as [C1 C2 C3 C4 C5]. match goal with E : k_queue ?k = ?a :: ?q, S : sock_of _ _ = Some ?k |- _ => rename k into k0, a into a0, q into q0; pose proof (sock_of_in _ _ _ S) as IN; pose proof E as EQ end. constructor; cbn [m_rounds m_got m_code m_socks]; auto.
      * intros p X. apply in_app_or in X. destruct X as [X|[<-|[]]]; [auto|]. cbn [snd]. assert (T : P (snd a0)) by (eapply C4; [exact IN|rewrite EQ; left; auto]). unfold seen. destruct (k_aux k0); [auto|]. apply HP. auto.
      * intros k1 b X Y. apply in_map_iff in X. destruct X as [k [<- X]]. destruct (_ =? _); [|eauto]. cbn [set_queue k_queue] in Y. eapply C4; [exact IN|]. rewrite EQ. right. auto.
      * intros ? ? ? X. eauto.
    + destruct C as [C1 C2 C3 C4 C5]. constructor; cbn [m_rounds m_got m_code m_socks]; auto.
      * apply all_sent_app; [auto|]. intros rd k [<-|[]]. cbn [rd_send]. eapply C5. rewrite EC. left. reflexivity.
      * apply Forall_app. split; [auto|]. constructor; [|constructor]. intros i m0 X. cbn [rd_rx] in X. destruct (got_in _ _ _ X) as [p [P1 <-]]. auto.
      * intros p [].
      * intros ? ? ? X. eauto.
    + apply (clean_code P m); [exact C|reflexivity|reflexivity|cbn [m_socks]|cbn [m_code]; intros ? ? ? X; auto]. intros k1 a X Y. unfold without in X. apply filter_In in X. exists k1. tauto.
  - destruct (m_code m) as [|[] rest] eqn:EC; try discriminate H. unfold wake in H. repeat match type of H with context [if ?t then _ else _] => destruct t eqn:?; try discriminate H end; apply some_inj, pair_inj in H; destruct H as [<- <-].
    + destruct C as [C1 C2 C3 C4 C5]. constructor; cbn [m_rounds m_got m_code m_socks]; auto.
      * apply all_sent_app; [auto|]. intros rd k [<-|[]]. cbn [rd_send]. auto.
      * apply Forall_app. split; [auto|]. constructor; [|constructor]. intros i m0 X. discriminate X.
      * intros ? ? ? X. eapply C5. rewrite EC. right. eauto.
    + destruct C as [C1 C2 C3 C4 C5]. constructor; cbn [with_code m_rounds m_got m_code m_socks]; auto. intros ? ? ? X. apply in_app_or in X. destruct X as [X|[X|[X|X]]].
      * apply in_map_iff in X. destruct X as [? [X _]]. discriminate X.
      * injection X as <- <- <-. auto.
      * discriminate X.
      * eapply C5. rewrite EC. right. eauto.
Qed.

Lemma begin_clean : forall P rs, clean P (begin rs).
Proof.
  intros P rs. constructor; cbn [begin m_rounds m_got m_socks m_code]; [intros ? ? []|constructor|intros ? []|intros ? ? []|].
  intros sel wr send X. apply in_app_or in X. destruct X as [X|[X|X]]; try discriminate X; apply in_map_iff in X; destruct X as [? [X _]]; discriminate X.
Qed.

Lemma run_clean : forall (P : rxmsg -> Prop) sch m m2 tr, (forall x, P x -> P (untag x)) -> run sch m = Some (m2, tr) -> clean P m -> Forall (smooth P) sch -> clean P m2.
Proof.
  intros P. induction sch as [|ch sch IH]; intros m m2 tr HP H C F; cbn [run] in H.
  - apply some_inj, pair_inj in H. destruct H as [<- <-]. auto.
  - destruct (step ch m) as [[ma ea]|] eqn:E1; [|discriminate]. destruct (run sch ma) as [[mb eb]|] eqn:E2; [|discriminate]. apply some_inj, pair_inj in H. destruct H as [<- <-]. eapply IH; [exact HP|exact E2| |apply (Forall_inv_tail F)]. eapply step_clean; eauto. apply (Forall_inv F).
Qed.

Lemma untag_fits : forall x, tag_fits x -> tag_fits (untag x).
Proof. intros x _ X. destruct X. auto. Qed.

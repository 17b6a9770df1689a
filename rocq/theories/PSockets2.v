(** Proofs about sockets: the course of the program (C91, C92). *)

From Coq Require Import Permutation.
From Verif Require Import BaseFacts SpecSockets PSockets.

(** *** The resources stay as many *)
Lemma rx_all_length : forall rd rs i rs' ev, rx_all rd i rs = Ret (rs', ev) -> length rs' = length rs.
Proof.
  intros rd. induction rs as [|r rs IH]; intros i rs' ev H; cbn [rx_all] in H; [apply ret_inj, pair_inj in H; destruct H; subst; auto|]. binv H. destruct a as [r1 ev1]. binv H. destruct a as [rest1 ev2]. apply ret_inj, pair_inj in H. destruct H; subst. cbn [length]. f_equal. eapply IH; eauto.
Qed.
Lemma tx_pass_length : forall wr sd rs i k rs' k' more ev, tx_pass wr sd i k rs = Ret (rs', k', more, ev) -> length rs' = length rs.
Proof.
  intros wr sd. induction rs as [|r rs IH]; intros i k rs' k' more ev H; cbn [tx_pass] in H; [apply ret_inj in H; repeat (apply pair_inj in H; destruct H as [H _]); subst; auto|].
  destruct (wr i); binv H.
  - destruct a as [[[cs mo] ev0]|]; binv H; destruct a as [[[rest1 k1] mo1] ev1]; apply ret_inj in H; do 3 (apply pair_inj in H; destruct H as [H _]); subst; cbn [length]; f_equal; eapply IH; eauto.
  - destruct a as [[[rest1 k1] mo1] ev1]; apply ret_inj in H; do 3 (apply pair_inj in H; destruct H as [H _]); subst; cbn [length]; f_equal; eapply IH; eauto.
Qed.
Lemma loop_length : forall n wr sd s s' more, loop_pow n (tx_body wr sd) s = Ret (s', more) -> length (tx_rs s') = length (tx_rs s).
Proof.
  induction n as [|n IH]; intros wr sd s s' more H; cbn [loop_pow] in H.
  - unfold tx_body in H. binv H. destruct a as [[[rs k] mo] ev]. apply ret_inj, pair_inj in H. destruct H as [<- _]. cbn [tx_rs]. eapply tx_pass_length; eauto.
  - binv H. destruct a as [s1 mo]. destruct mo; [apply IH in H; apply IH in E; congruence|]. apply ret_inj, pair_inj in H. destruct H as [<- _]. eapply IH; eauto.
Qed.
Lemma tx_loop_length : forall wr sd rs rs' ev, tx_loop wr sd rs = Ret (rs', ev) -> length rs' = length rs.
Proof.
  intros wr sd rs rs' ev. unfold tx_loop. generalize 64%nat. intros n H. binv H. destruct a as [s mo]. destruct mo; [discriminate H|]. apply ret_inj, pair_inj in H. destruct H as [<- _]. apply loop_length in E. exact E.
Qed.
Lemma process_length : forall rd rs rs' ev, process rd rs = Ret (rs', ev) -> length rs' = length rs.
Proof.
  intros rd rs rs' ev H. unfold process in H. binv H. destruct a as [rs1 ev1]. binv H. destruct a as [rs2 ev2]. apply ret_inj, pair_inj in H. destruct H as [<- _].
  apply tx_loop_length in E0. rewrite E0. eapply rx_all_length; eauto.
Qed.

(** *** Where the program is *)
Definition closes (n : nat) : list instr := map Close (seq 0 n).
Definition tail (n : nat) : list instr := Loop :: closes n.
Definition more (i n : nat) : list instr := map Socket (seq i (n - i)) ++ tail n.

Inductive opens (i : nat) (fd : Z) : instr -> Prop :=
| Op_lookup : opens i fd (Lookup i fd)
| Op_lookup2 x : opens i fd (Lookup2 i fd x)
| Op_bind x y : opens i fd (Bind i fd x y)
| Op_promisc x : opens i fd (Promisc i fd x)
| Op_aux : opens i fd (Auxdata i fd)
| Op_drain n : opens i fd (Drain i fd n).

Inductive at_ (n : nat) : list instr -> list Z -> list (nat * Z) -> list (nat * rxmsg) -> list round -> bool -> Prop :=
| At_next i fds rds : (i <= n)%nat -> length fds = i -> ((i < n)%nat -> rds = []) -> at_ n (more i n) fds (own fds) [] rds false
| At_open i fd x fds : (i < n)%nat -> length fds = i -> opens i fd x -> at_ n (x :: more (S i) n) fds (own fds ++ [(i, fd)]) [] [] false
| At_shut i fd fds : (i < n)%nat -> length fds = i -> at_ n [Shut i fd] fds (own fds ++ [(i, fd)]) [] [] false
| At_failed fds l : (length fds < n)%nat -> l = own fds -> at_ n [] fds l [] [] true
| At_turn l sel wr send fds got rds : length fds = n -> 0 < sel -> NoDup (map fst got ++ l) -> (forall i, In i l -> (i < n)%nat) ->
    at_ n (map Recv l ++ Serve sel wr send :: tail n) fds (own fds) got rds false
| At_close j fds rds : (j <= n)%nat -> length fds = n -> at_ n (map Close (seq j (n - j))) fds (skipn j (own fds)) [] rds false.

Record course (n : nat) (m : machine) : Prop := {
  co_at : at_ n (m_code m) (m_fds m) (ids m) (m_got m) (m_rounds m) (m_failed m);
  co_rs : length (m_rs m) = n;
  co_no : NoDup (map fst (ids m));
  co_fd : NoDup (map snd (ids m)) }.

Lemma own_length : forall l, length (own l) = length l.
Proof. intros l. unfold own. rewrite combine_length, seq_length. lia. Qed.

Lemma own_fst : forall l, map fst (own l) = seq 0 (length l).
Proof.
  intros l. unfold own. generalize 0%nat. induction l as [|x l IH]; intros z; [auto|]. cbn [length seq combine map fst]. rewrite IH. auto.
Qed.
Lemma own_snd : forall l, map snd (own l) = l.
Proof. intros l. unfold own. generalize 0%nat. induction l as [|x l IH]; intros z; [auto|]. cbn [length seq combine map snd]. rewrite IH. auto. Qed.

Lemma existsb_fds : forall m r, existsb (fun k => k_fd k =? r) (m_socks m) = false -> ~ In r (map snd (ids m)).
Proof.
  intros m r H X. unfold ids in X. rewrite map_map in X. cbn [snd] in X. apply in_map_iff in X. destruct X as [k [E X]]. assert (existsb (fun k => k_fd k =? r) (m_socks m) = true) by (apply existsb_exists; exists k; split; [auto|apply Z.eqb_eq; auto]). congruence.
Qed.

Lemma NoDup_snoc : forall A (l : list A) x, NoDup l -> ~ In x l -> NoDup (l ++ [x]).
Proof. intros A l x H N. apply NoDup_rev in H. rewrite <- (rev_involutive (l ++ [x])). apply NoDup_rev. rewrite rev_app_distr. cbn. constructor; [rewrite <- in_rev; auto|auto]. Qed.

Lemma filter_own_last : forall l i fd, NoDup (map snd (l ++ [(i, fd)])) -> filter (fun p : nat * Z => negb (snd p =? fd)) (l ++ [(i, fd)]) = l.
Proof.
  intros l i fd N. rewrite map_app in N. cbn in N. apply NoDup_remove_2 in N. rewrite app_nil_r in N. rewrite filter_app. cbn [filter snd]. rewrite Z.eqb_refl. cbn [negb]. rewrite app_nil_r.
  induction l as [|[j f] l IH]; [auto|]. cbn [filter snd map In] in *. destruct (Z.eqb_spec f fd); [exfalso; apply N; auto|]. cbn [negb]. rewrite IH; auto.
Qed.

Lemma skipn_own : forall l j x, nth_error l j = Some x -> skipn j (own l) = (j, x) :: skipn (S j) (own l).
Proof.
  intros l j x H. apply own_nth in H. revert j H. generalize (own l). intros o j. generalize (j, x). clear. revert j. induction o as [|p o IH]; intros [|j] q H; try discriminate H; cbn [skipn nth_error] in *; [congruence|]. rewrite (IH j q H). reflexivity.
Qed.

Lemma map_Socket_more : forall i n, (i < n)%nat -> more i n = Socket i :: more (S i) n.
Proof. intros i n H. unfold more. destruct (n - i)%nat as [|d] eqn:E; [lia|]. cbn [seq map app]. replace (n - S i)%nat with d by lia. auto. Qed.
Lemma more_end : forall n, more n n = tail n.
Proof. intros n. unfold more. rewrite Nat.sub_diag. auto. Qed.
Lemma closes_from : forall j n, (j < n)%nat -> map Close (seq j (n - j)) = Close j :: map Close (seq (S j) (n - S j)).
Proof. intros j n H. destruct (n - j)%nat as [|d] eqn:E; [lia|]. cbn [seq map]. replace (n - S j)%nat with d by lia. auto. Qed.
Lemma tail_closes : forall n, tail n = Loop :: map Close (seq 0 (n - 0)).
Proof. intros n. rewrite Nat.sub_0_r. auto. Qed.

Lemma begin_course : forall rs, course (length rs) (begin rs).
Proof.
  intros rs. constructor; [|reflexivity|apply NoDup_nil|apply NoDup_nil]. pose proof (At_next (length rs) 0 [] [] ltac:(lia) eq_refl (fun _ => eq_refl)) as H. unfold more, tail, closes in H. rewrite Nat.sub_0_r in H. exact H.
Qed.

Lemma ids_enqueue : forall m c a, ids (with_socks m c (map (enqueue a) (m_socks m))) = ids m.
Proof. intros m c a. unfold ids, with_socks. cbn [m_socks]. rewrite map_map. apply map_ext. intros k. unfold enqueue. destruct (_ || _); auto. Qed.

(** *** The steps it takes *)
Record opening (n : nat) (m : machine) (i : nat) (fd : Z) : Prop := {
  og_lt : (i < n)%nat; og_fds : length (m_fds m) = i; og_ids : ids m = own (m_fds m) ++ [(i, fd)]; og_got : m_got m = []; og_rounds : m_rounds m = []; og_failed : m_failed m = false }.
Record opened (n : nat) (m : machine) : Prop := {
  od_fds : length (m_fds m) = n; od_ids : ids m = own (m_fds m); od_failed : m_failed m = false }.

Inductive move (n : nat) (m : machine) : choice -> machine -> list happening -> Prop :=
| Mv_arrive ix x : 0 < ix -> move n m (Arrive ix x) (with_socks m (m_code m) (map (enqueue (ix, x)) (m_socks m))) [Arrived ix x]
| Mv_nosocket r i : m_code m = Socket i :: more (S i) n -> (i < n)%nat -> length (m_fds m) = i -> ids m = own (m_fds m) -> m_got m = [] -> m_rounds m = [] -> m_failed m = false ->
    move n m (Go r) (MkM [] (m_fds m) (m_rs m) (m_socks m) [] [] (m_ev m) true) [NotOpened i]
| Mv_socket r i : m_code m = Socket i :: more (S i) n -> (i < n)%nat -> length (m_fds m) = i -> ids m = own (m_fds m) -> m_got m = [] -> m_rounds m = [] -> m_failed m = false ->
    0 <= r -> ~ In r (map snd (ids m)) -> move n m (Go r) (with_socks m (Lookup i r :: more (S i) n) (m_socks m ++ [MkSock r i 0 false []])) [Opened i r]
| Mv_lookup r i fd : m_code m = Lookup i fd :: more (S i) n -> opening n m i fd -> move n m (Go r) (with_code m (Lookup2 i fd r :: more (S i) n)) [Index i false r]
| Mv_lookup2 r i fd y : m_code m = Lookup2 i fd y :: more (S i) n -> opening n m i fd -> move n m (Go r) (with_code m (Bind i fd y r :: more (S i) n)) [Index i true r]
| Mv_promisc r i fd y : m_code m = Promisc i fd y :: more (S i) n -> opening n m i fd -> y <> 0 -> move n m (Go r) (with_code m (Auxdata i fd :: more (S i) n)) []
| Mv_refused r i fd x : m_code m = x :: more (S i) n -> opening n m i fd -> (exists y z, x = Bind i fd y z) \/ (exists y, x = Promisc i fd y) ->
    move n m (Go r) (with_code m [Shut i fd]) [Refused i]
| Mv_bind r i fd y z : m_code m = Bind i fd y z :: more (S i) n -> opening n m i fd ->
    move n m (Go r) (with_socks m (Promisc i fd y :: more (S i) n) (on_sock fd (set_if z) m)) [Bound i z]
| Mv_noaux r i fd : m_code m = Auxdata i fd :: more (S i) n -> opening n m i fd ->
    move n m (Go r) (with_code m (Drain i fd drain_turns :: more (S i) n)) [Untagged i]
| Mv_aux r i fd : m_code m = Auxdata i fd :: more (S i) n -> opening n m i fd ->
    move n m (Go r) (with_socks m (Drain i fd drain_turns :: more (S i) n) (on_sock fd set_aux m)) []
| Mv_drain r i fd d k a q : m_code m = Drain i fd (S d) :: more (S i) n -> opening n m i fd -> view m i = Some k -> k_fd k = fd -> k_queue k = a :: q ->
    move n m (Go r) (with_socks m (Drain i fd d :: more (S i) n) (on_sock fd (set_queue q) m)) [Dropped i a]
| Mv_usable r i fd d k ev : m_code m = Drain i fd d :: more (S i) n -> opening n m i fd -> view m i = Some k -> k_fd k = fd ->
    (d = O /\ ev = [] \/ k_queue k = [] /\ ev = [] \/ ev = [Failed i]) ->
    move n m (Go r) (MkM (more (S i) n) (m_fds m ++ [fd]) (m_rs m) (m_socks m) [] [] (m_ev m) false) (ev ++ [Usable i fd])
| Mv_shut r i fd : m_code m = [Shut i fd] -> opening n m i fd ->
    move n m (Go r) (MkM [] (m_fds m) (m_rs m) (without fd m) [] [] (m_ev m) true) [Closed i fd]
| Mv_idle r : m_code m = tail n -> opened n m -> m_got m = [] -> existsb (fun r => has_rx r || has_tx r) (m_rs m) = false -> move n m (Go r) (with_code m (closes n)) []
| Mv_over sel late ready wr send : m_code m = tail n -> opened n m -> m_got m = [] -> existsb (fun r => has_rx r || has_tx r) (m_rs m) = true -> late || (sel <=? 0) = true ->
    move n m (Wake sel late ready wr send) (MkM (closes n) (m_fds m) (m_rs m) (m_socks m) [] (m_rounds m ++ [MkRound sel late (fun _ => None) wr send]) (m_ev m) false) [Turn]
| Mv_turn sel ready wr send : m_code m = tail n -> opened n m -> m_got m = [] -> existsb (fun r => has_rx r || has_tx r) (m_rs m) = true -> 0 < sel ->
    (forall i k, ready i = true -> view m i = Some k -> k_queue k <> []) ->
    move n m (Wake sel false ready wr send) (with_code m (map Recv (filter ready (seq 0 n)) ++ Serve sel wr send :: tail n)) [Turn]
| Mv_norecv r i l sel wr send : m_code m = Recv i :: map Recv l ++ Serve sel wr send :: tail n -> opened n m -> 0 < sel -> NoDup (map fst (m_got m) ++ i :: l) -> (forall j, In j (i :: l) -> (j < n)%nat) ->
    move n m (Go r) (with_code m (map Recv l ++ Serve sel wr send :: tail n)) [Failed i]
| Mv_recv r i l sel wr send k a q : m_code m = Recv i :: map Recv l ++ Serve sel wr send :: tail n -> opened n m -> 0 < sel -> NoDup (map fst (m_got m) ++ i :: l) -> (forall j, In j (i :: l) -> (j < n)%nat) ->
    nth_error (m_fds m) i = Some (k_fd k) -> view m i = Some k -> k_queue k = a :: q ->
    move n m (Go r) (MkM (map Recv l ++ Serve sel wr send :: tail n) (m_fds m) (m_rs m) (on_sock (k_fd k) (set_queue q) m) (m_got m ++ [(i, seen k (snd a))]) (m_rounds m) (m_ev m) false) [Taken i a]
| Mv_serve r sel wr send rs ev : m_code m = Serve sel wr send :: tail n -> opened n m -> 0 < sel -> NoDup (map fst (m_got m)) -> process (MkRound sel false (got (m_got m)) wr send) (m_rs m) = Ret (rs, ev) ->
    move n m (Go r) (MkM (tail n) (m_fds m) rs (m_socks m) [] (m_rounds m ++ [MkRound sel false (got (m_got m)) wr send]) (m_ev m ++ ev) false) []
| Mv_close r j fd : m_code m = Close j :: map Close (seq (S j) (n - S j)) -> (j < n)%nat -> length (m_fds m) = n -> nth_error (m_fds m) j = Some fd -> ids m = skipn j (own (m_fds m)) -> m_got m = [] -> m_failed m = false ->
    move n m (Go r) (with_socks m (map Close (seq (S j) (n - S j))) (without fd m)) [Closed j fd].

Ltac pairs := repeat match goal with H : Some _ = Some _ |- _ => apply some_inj in H | H : (_, _) = (_, _) |- _ => apply pair_inj in H; destruct H as [<- <-] end.

Lemma step_move : forall n m ch m1 ev, course n m -> step ch m = Some (m1, ev) -> move n m ch m1 ev.
Proof.
  intros n m ch m1 ev [HA HR N1 N2] H. destruct ch as [ix x|r|sel late ready wr send]; cbn [step] in H.
  - destruct (Z.ltb_spec 0 ix); [|discriminate]. pairs. constructor. auto.
  - remember (m_code m) as c eqn:Ec. remember (ids m) as I eqn:EI. remember (m_got m) as G eqn:EG. remember (m_rounds m) as RD eqn:ER. remember (m_failed m) as F eqn:EF. remember (m_fds m) as FD eqn:EFD. destruct HA as [i fds rds A1 A2 A3|i fd x fds A1 A2 A3|i fd fds A1 A2|fds l A1 A2|l sel wr send fds gt rds A1 A2 A3 A4|j fds rds A1 A2].
    + destruct (Nat.eq_dec i n) as [->|D].
      * rewrite more_end in *. unfold tail in H. cbn [go] in H. destruct (existsb _ _) eqn:EB; [discriminate|]. pairs. apply Mv_idle; congruence || auto. constructor; congruence.
      * assert (L : (i < n)%nat) by lia. rewrite (A3 L) in *. rewrite (map_Socket_more _ _ L) in *. cbn [go] in H. destruct (Z.ltb_spec r 0); [|destruct (existsb _ _) eqn:EB; [discriminate|]]; pairs.
        -- rewrite <- EG, <- ER, <- EFD. rewrite EFD. apply Mv_nosocket; congruence.
        -- apply Mv_socket; try congruence; auto. rewrite <- EI. rewrite EI. apply existsb_fds. auto.
    + assert (HI : In (i, fd) (ids m)) by (rewrite <- EI; apply in_or_app; right; left; auto). assert (HO : opening n m i fd) by (constructor; congruence). rewrite EI in N1, N2. destruct (view_sock _ _ _ N1 N2 HI) as [k [V1 [V2 [V3 V4]]]].
      destruct A3; cbn [go] in H.
      * destruct (Z.ltb_spec r 0); [discriminate|]. pairs. apply Mv_lookup; auto.
      * destruct (Z.ltb_spec r 0); [discriminate|]. pairs. apply Mv_lookup2; auto.
      * destruct (Z.ltb_spec r 0); pairs; [eapply Mv_refused; [symmetry; exact Ec|exact HO|eauto]|]. apply Mv_bind; auto.
      * destruct ((r <? 0) || (x =? 0)) eqn:E0; pairs; [eapply Mv_refused; [symmetry; exact Ec|exact HO|eauto]|]. apply orb_false_iff in E0. destruct E0 as [_ E0]. apply Z.eqb_neq in E0. eapply Mv_promisc; eauto.
      * destruct (Z.ltb_spec r 0); pairs; [eapply Mv_noaux; eauto|eapply Mv_aux; eauto].
      * rewrite V2 in H. destruct n0 as [|d].
        -- pairs. rewrite <- EFD, <- EG, <- ER, <- EF. rewrite EFD. apply (Mv_usable n m r i fd 0 k []); auto.
        -- destruct (k_queue k) as [|a q] eqn:EQ.
           ++ pairs. rewrite <- EFD, <- EG, <- ER, <- EF. rewrite EFD. apply (Mv_usable n m r i fd (S d) k []); auto.
           ++ destruct (Z.ltb_spec r 0); pairs.
              ** rewrite <- EFD, <- EG, <- ER, <- EF. rewrite EFD. apply (Mv_usable n m r i fd (S d) k [Failed i]); auto.
              ** eapply Mv_drain; eauto.
    + cbn [go] in H. pairs. rewrite <- EG, <- ER. eapply Mv_shut; auto. constructor; congruence.
    + discriminate H.
    + assert (HO : opened n m) by (constructor; congruence). destruct l as [|i l]; cbn [map app] in H.
      * cbn [go] in H. destruct (process _ _) as [[rs ev1]|] eqn:EP; [|discriminate]. pairs. rewrite <- EF. eapply Mv_serve; try congruence; auto. rewrite app_nil_r in A3. congruence.
      * cbn [go] in H. rewrite <- EFD in H. destruct (nth_error fds i) as [fd|] eqn:EN; [|discriminate]. assert (HI : In (i, fd) (ids m)) by (rewrite <- EI; eapply nth_error_In; apply own_nth; eauto). rewrite EI in N1, N2. destruct (view_sock _ _ _ N1 N2 HI) as [k [V1 [V2 [V3 V4]]]]. rewrite V2 in H.
        destruct (Z.ltb_spec r 0); [pairs; apply Mv_norecv; congruence || auto|]. destruct (k_queue k) as [|a q] eqn:EQ; [discriminate|]. pairs. subst fd. rewrite EFD, <- EF. eapply Mv_recv; try congruence; eauto.
    + destruct (Nat.eq_dec j n) as [->|D]; [rewrite Nat.sub_diag in H; discriminate H|]. assert (L : (j < n)%nat) by lia. rewrite (closes_from _ _ L) in *. cbn [go] in H. rewrite <- EFD in H. destruct (nth_error fds j) as [fd|] eqn:EN; [|discriminate]. pairs. eapply Mv_close; try congruence; auto.
  - destruct (m_code m) as [|x0 rest] eqn:Ec; [discriminate|]. destruct x0; try discriminate. unfold wake in H. destruct (existsb _ (m_rs m)) eqn:EB; [|discriminate].
    assert (K : rest = closes n /\ length (m_fds m) = n /\ ids m = own (m_fds m) /\ m_got m = [] /\ m_failed m = false).
    { remember (Loop :: rest) as c eqn:Ec'. destruct HA as [i fds rds A1 A2 A3|i fd x fds A1 A2 A3|i fd fds A1 A2|fds l A1 A2|l sel0 wr0 send0 fds gt rds A1 A2 A3 A4|j fds rds A1 A2].
      - destruct (Nat.eq_dec i n) as [->|D]; [|rewrite map_Socket_more in Ec' by lia; discriminate Ec']. rewrite more_end in Ec'. unfold tail in Ec'. split; [congruence|]. auto.
      - destruct A3; discriminate Ec'.
      - discriminate Ec'.
      - discriminate Ec'.
      - destruct l; discriminate Ec'.
      - destruct (n - j)%nat; discriminate Ec'. }
    destruct K as [-> [K1 [K2 [K3 K4]]]]. assert (HO : opened n m) by (constructor; auto). rewrite HR in H. destruct (late || (sel <=? 0)) eqn:EL.
    + pairs. rewrite K3, K4. eapply Mv_over; eauto.
    + apply orb_false_iff in EL. destruct EL as [-> EL]. destruct (forallb _ _) eqn:EF; [|discriminate]. pairs. eapply Mv_turn; eauto; [lia|]. intros i k Hr Hv. destruct (view_in _ _ _ Hv) as [I1 I2]. pose proof I1 as I1'. rewrite K2 in I1. apply own_in in I1.
      assert (L : (i < n)%nat) by (rewrite <- K1; apply nth_error_Some; congruence). rewrite forallb_forall in EF. specialize (EF i ltac:(apply in_seq; lia)). rewrite Hr, I1 in EF. cbn [negb orb] in EF. apply andb_true_iff in EF. destruct EF as [_ EF]. unfold hears in EF.
      destruct (view_sock _ _ _ N1 N2 I1') as [k' [V1 [V2 _]]]. rewrite V2 in EF. assert (k' = k) by congruence. subst k'. intros Q. rewrite Q in EF. discriminate EF.
Qed.

Lemma move_course : forall n m ch m1 ev, course n m -> move n m ch m1 ev -> course n m1.
Proof.
  intros n m ch m1 ev [HA HR N1 N2] H. destruct H as [ix x H|r i E H1 H2 H3 H4 H5 H6|r i E H1 H2 H3 H4 H5 H6 H7 H8|r i fd E H|r i fd y E H|r i fd y E H H0|r i fd x E H H0|r i fd y z E H|r i fd E H|r i fd E H|r i fd d k a q E H V F Q|r i fd d k ev E H V F Q|r i fd E H|r E H G B|sel late ready wr send E H G B L|sel ready wr send E H G B L R|r i l sel wr send E H L D B|r i l sel wr send k a q E H L D B F V Q|r sel wr send rs ev E H L D P|r j fd E L F X I G Y].
  all: try match goal with H : opening _ _ _ _ |- _ => destruct H as [O1 O2 O3 O4 O5 O6] end.
  - constructor; cbn [with_socks m_code m_fds m_rs m_got m_rounds m_failed]; rewrite ?ids_enqueue; auto.
  - constructor; cbn [m_code m_fds m_rs m_got m_rounds m_failed]; auto. change (ids (MkM [] (m_fds m) (m_rs m) (m_socks m) [] [] (m_ev m) true)) with (ids m). apply At_failed; [lia|auto].
  - assert (EI : ids (with_socks m (Lookup i r :: more (S i) n) (m_socks m ++ [MkSock r i 0 false []])) = ids m ++ [(i, r)]) by (unfold ids, with_socks; cbn [m_socks]; rewrite map_app; auto).
    constructor; cbn [with_socks m_code m_fds m_rs m_got m_rounds m_failed] in *; rewrite ?EI; auto.
    + rewrite H3, H4, H5, H6. apply At_open; auto. constructor.
    + rewrite map_app. apply NoDup_snoc; auto. cbn. rewrite H3, own_fst. intros X. apply in_seq in X. lia.
    + rewrite map_app. apply NoDup_snoc; auto.
  - constructor; cbn [with_code m_code m_fds m_rs m_got m_rounds m_failed]; auto. change (ids (with_code m (Lookup2 i fd r :: more (S i) n))) with (ids m). rewrite O3, O4, O5, O6. apply At_open; auto. constructor.
  - constructor; cbn [with_code m_code m_fds m_rs m_got m_rounds m_failed]; auto. change (ids (with_code m (Bind i fd y r :: more (S i) n))) with (ids m). rewrite O3, O4, O5, O6. apply At_open; auto. constructor.
  - constructor; cbn [with_code m_code m_fds m_rs m_got m_rounds m_failed]; auto. change (ids (with_code m (Auxdata i fd :: more (S i) n))) with (ids m). rewrite O3, O4, O5, O6. apply At_open; auto. constructor.
  - constructor; cbn [with_code m_code m_fds m_rs m_got m_rounds m_failed]; auto. change (ids (with_code m [Shut i fd])) with (ids m). rewrite O3, O4, O5, O6. apply At_shut; auto.
  - constructor; rewrite ?ids_on_sock by reflexivity; cbn [with_socks m_code m_fds m_rs m_got m_rounds m_failed]; auto. rewrite O3, O4, O5, O6. apply At_open; auto. constructor.
  - constructor; cbn [with_code m_code m_fds m_rs m_got m_rounds m_failed]; auto. change (ids (with_code m (Drain i fd drain_turns :: more (S i) n))) with (ids m). rewrite O3, O4, O5, O6. apply At_open; auto. constructor.
  - constructor; rewrite ?ids_on_sock by reflexivity; cbn [with_socks m_code m_fds m_rs m_got m_rounds m_failed]; auto. rewrite O3, O4, O5, O6. apply At_open; auto. constructor.
  - constructor; rewrite ?ids_on_sock by reflexivity; cbn [with_socks m_code m_fds m_rs m_got m_rounds m_failed]; auto. rewrite O3, O4, O5, O6. apply At_open; auto. constructor.
  - constructor; cbn [m_code m_fds m_rs m_got m_rounds m_failed]; auto. change (ids (MkM (more (S i) n) (m_fds m ++ [fd]) (m_rs m) (m_socks m) [] [] (m_ev m) false)) with (ids m). rewrite O3, <- O2, <- own_snoc. apply At_next; auto; [lia|rewrite app_length; cbn [length]; lia].
  - assert (EI : ids (MkM [] (m_fds m) (m_rs m) (without fd m) [] [] (m_ev m) true) = own (m_fds m)) by (unfold ids at 1; cbn [m_socks]; rewrite ids_without, O3; apply filter_own_last; rewrite <- O3; auto).
    constructor; cbn [m_code m_fds m_rs m_got m_rounds m_failed]; rewrite ?EI; auto.
    + apply At_failed; [lia|auto].
    + rewrite own_fst. apply seq_NoDup.
    + rewrite O3, map_app in N2. cbn [map snd] in N2. apply NoDup_remove_1 in N2. rewrite app_nil_r in N2. exact N2.
  - constructor; cbn [with_code m_code m_fds m_rs m_got m_rounds m_failed]; auto. change (ids (with_code m (closes n))) with (ids m). rewrite (od_ids _ _ H), G, (od_failed _ _ H). pose proof (At_close n 0 (m_fds m) (m_rounds m) ltac:(lia) (od_fds _ _ H)) as K. rewrite Nat.sub_0_r in K. exact K.
  - constructor; cbn [m_code m_fds m_rs m_got m_rounds m_failed]; auto. change (ids (MkM (closes n) (m_fds m) (m_rs m) (m_socks m) [] (m_rounds m ++ [MkRound sel late (fun _ => None) wr send]) (m_ev m) false)) with (ids m). rewrite (od_ids _ _ H).
    pose proof (At_close n 0 (m_fds m) (m_rounds m ++ [MkRound sel late (fun _ => None) wr send]) ltac:(lia) (od_fds _ _ H)) as K. rewrite Nat.sub_0_r in K. exact K.
  - constructor; cbn [with_code m_code m_fds m_rs m_got m_rounds m_failed]; auto. change (ids (with_code m (map Recv (filter ready (seq 0 n)) ++ Serve sel wr send :: tail n))) with (ids m). rewrite (od_ids _ _ H), G, (od_failed _ _ H). apply At_turn; auto; [apply (od_fds _ _ H)|apply NoDup_filter, seq_NoDup|].
    intros i X. apply filter_In in X. destruct X as [X _]. apply in_seq in X. lia.
  - constructor; cbn [with_code m_code m_fds m_rs m_got m_rounds m_failed]; auto. change (ids (with_code m (map Recv l ++ Serve sel wr send :: tail n))) with (ids m). rewrite (od_ids _ _ H), (od_failed _ _ H). apply At_turn; auto; [apply (od_fds _ _ H)|apply NoDup_remove_1 in D; exact D|]. intros j X. apply B. right. auto.
  - assert (EI : ids (MkM (map Recv l ++ Serve sel wr send :: tail n) (m_fds m) (m_rs m) (on_sock (k_fd k) (set_queue q) m) (m_got m ++ [(i, seen k (snd a))]) (m_rounds m) (m_ev m) false) = ids m) by (apply (ids_on_sock (k_fd k) (set_queue q) m []); reflexivity).
    constructor; cbn [m_code m_fds m_rs m_got m_rounds m_failed]; rewrite ?EI; auto. rewrite (od_ids _ _ H). apply At_turn; auto; [apply (od_fds _ _ H)| |]. 2: { intros j X. apply B. right. auto. }
    rewrite map_app, <- app_assoc. exact D.
  - constructor; cbn [m_code m_fds m_rs m_got m_rounds m_failed]; auto; [|rewrite (process_length _ _ _ _ P); auto]. match goal with |- at_ _ _ _ ?x _ _ _ => change x with (ids m) end. rewrite (od_ids _ _ H). rewrite <- more_end. apply At_next; auto; [apply (od_fds _ _ H)|lia].
  - assert (EI : ids (with_socks m (map Close (seq (S j) (n - S j))) (without fd m)) = skipn (S j) (own (m_fds m))).
    { unfold ids at 1, with_socks. cbn [m_socks]. rewrite ids_without. rewrite I in *. rewrite (skipn_own _ _ _ X) in *. cbn [filter snd]. rewrite Z.eqb_refl. cbn [negb]. cbn [map snd] in N2. apply NoDup_cons_iff in N2. destruct N2 as [N2 _].
      clear - N2. induction (skipn (S j) (own (m_fds m))) as [|[u v] o IH]; [auto|]. cbn [filter map snd In] in *. destruct (Z.eqb_spec v fd); [exfalso; auto|]. cbn [negb]. rewrite IH; auto. }
    constructor; cbn [with_socks m_code m_fds m_rs m_got m_rounds m_failed] in *; rewrite ?EI; auto.
    + rewrite G, Y. apply At_close; auto.
    + rewrite I, (skipn_own _ _ _ X) in N1. cbn [map] in N1. apply NoDup_cons_iff in N1. apply N1.
    + rewrite I, (skipn_own _ _ _ X) in N2. cbn [map] in N2. apply NoDup_cons_iff in N2. apply N2.
Qed.

(** Proofs about sockets: every run of C37-C50 is possible (C91). *)

From Verif Require Import BaseFacts SpecProgress PSockets PSockets2 PSockets3 PSockets4 PSockets5 PSockets6 PSockets7 PParse PCmd PPair PRecv PExec PQuiet PTotal.

(** *** A quiet world: descriptors 3, 4, ..., interfaces 1, 2, ... *)
Definition nice (q : nat -> list arrival) (j : nat) : sock := MkSock (3 + Z.of_nat j) j (1 + Z.of_nat j) true (q j).
Definition nices (q : nat -> list arrival) (i : nat) : list sock := map (nice q) (seq 0 i).
Definition nice_fds (i : nat) : list Z := map (fun j => 3 + Z.of_nat j) (seq 0 i).
Definition empty (_ : nat) : list arrival := [].
Definition upd (q : nat -> list arrival) (i : nat) (l : list arrival) : nat -> list arrival := fun j => if Nat.eqb j i then l else q j.

Lemma run_cons : forall ch sch m m1 ev m2 tr, step ch m = Some (m1, ev) -> run sch m1 = Some (m2, tr) -> run (ch :: sch) m = Some (m2, ev ++ tr).
Proof. intros ch sch m m1 ev m2 tr H1 H2. cbn [run]. rewrite H1, H2. auto. Qed.

Lemma nices_ext : forall q q' n, (forall j, (j < n)%nat -> q j = q' j) -> nices q n = nices q' n.
Proof. intros q q' n H. apply map_ext_in. intros j Hj. apply in_seq in Hj. unfold nice. rewrite H by lia. auto. Qed.

Lemma nice_fds_nth : forall n i, (i < n)%nat -> nth_error (nice_fds n) i = Some (3 + Z.of_nat i).
Proof. intros n i H. unfold nice_fds. rewrite nth_error_map. rewrite (nth_error_nth' _ 0%nat) by (rewrite seq_length; auto). cbn [option_map]. rewrite seq_nth by auto. auto. Qed.

Lemma nices_find : forall q n i, (i < n)%nat -> find (fun k => k_fd k =? 3 + Z.of_nat i) (nices q n) = Some (nice q i).
Proof.
  intros q n i H. unfold nices. assert (G : forall s, (s <= i < s + n)%nat -> find (fun k => k_fd k =? 3 + Z.of_nat i) (map (nice q) (seq s n)) = Some (nice q i)).
  { clear H. induction n as [|n IH]; intros s H; [lia|]. cbn [seq map find nice k_fd]. destruct (Z.eqb_spec (3 + Z.of_nat s) (3 + Z.of_nat i)) as [E|E]; [assert (s = i) by lia; subst; auto|]. apply IH. lia. }
  apply G. lia.
Qed.

Lemma nices_on : forall q n i l f, (i < n)%nat -> (forall k, f k = set_queue l k) -> map (fun k => if k_fd k =? 3 + Z.of_nat i then f k else k) (nices q n) = nices (upd q i l) n.
Proof.
  intros q n i l f H F. unfold nices. rewrite map_map. apply map_ext_in. intros j Hj. unfold nice, upd. cbn [k_fd]. destruct (Z.eqb_spec (3 + Z.of_nat j) (3 + Z.of_nat i)) as [E|E].
  - assert (j = i) by lia. subst. rewrite Nat.eqb_refl, F. auto.
  - destruct (Nat.eqb_spec j i); [lia|auto].
Qed.

Lemma nices_arrive : forall q n i m, map (enqueue (1 + Z.of_nat i, m)) (nices q n) = nices (upd q i (q i ++ [(1 + Z.of_nat i, m)])) n.
Proof.
  intros q n i m. unfold nices. rewrite map_map. apply map_ext_in. intros j Hj. unfold enqueue, nice, upd. cbn [k_if fst k_queue]. destruct (Z.eqb_spec (1 + Z.of_nat j) 0) as [E|E]; [lia|]. cbn [orb]. destruct (Z.eqb_spec (1 + Z.of_nat j) (1 + Z.of_nat i)) as [E1|E1].
  - assert (j = i) by lia. subst. rewrite Nat.eqb_refl. auto.
  - destruct (Nat.eqb_spec j i); [lia|auto].
Qed.

Lemma nices_snoc : forall q i, nices q (S i) = nices q i ++ [nice q i].
Proof. intros q i. unfold nices. rewrite seq_S, map_app. auto. Qed.
Lemma nice_fds_snoc : forall i, nice_fds (S i) = nice_fds i ++ [3 + Z.of_nat i].
Proof. intros i. unfold nice_fds. rewrite seq_S, map_app. auto. Qed.

Lemma nices_fd : forall q n fd, (forall j, (j < n)%nat -> fd <> 3 + Z.of_nat j) -> existsb (fun k => k_fd k =? fd) (nices q n) = false.
Proof.
  intros q n fd H. destruct (existsb _ _) eqn:E; [|auto]. apply existsb_exists in E. destruct E as [k [K1 K2]]. unfold nices in K1. apply in_map_iff in K1. destruct K1 as [j [<- K1]]. apply in_seq in K1. apply Z.eqb_eq in K2. cbn [nice k_fd] in K2. destruct (H j); [lia|auto].
Qed.

(** *** Setting up *)
Definition ready_to (i n : nat) (rs : list resource) : machine := MkM (more i n) (nice_fds i) rs (nices empty i) [] [] [] false.

Lemma on_last : forall i f k, k_fd k = 3 + Z.of_nat i -> map (fun k => if k_fd k =? 3 + Z.of_nat i then f k else k) (nices empty i ++ [k]) = nices empty i ++ [f k].
Proof.
  intros i f k H. rewrite map_app. cbn [map]. rewrite H, Z.eqb_refl. f_equal. unfold nices. rewrite map_map. apply map_ext_in. intros j Hj. apply in_seq in Hj. cbn [nice k_fd]. destruct (Z.eqb_spec (3 + Z.of_nat j) (3 + Z.of_nat i)); [lia|auto].
Qed.

Lemma find_last : forall i k, k_fd k = 3 + Z.of_nat i -> find (fun k => k_fd k =? 3 + Z.of_nat i) (nices empty i ++ [k]) = Some k.
Proof.
  intros i k H. pose proof (nices_fd empty i (3 + Z.of_nat i) ltac:(intros; lia)) as E. revert E. generalize (nices empty i). intros l E. induction l as [|x l IH]; cbn [app find existsb] in *; [rewrite H, Z.eqb_refl; auto|]. destruct (k_fd x =? _); [discriminate E|]. auto.
Qed.

Definition bringing_up (i : nat) : list happening :=
  [Opened i (3 + Z.of_nat i); Index i false (1 + Z.of_nat i); Index i true (1 + Z.of_nat i); Bound i (1 + Z.of_nat i); Usable i (3 + Z.of_nat i)].

Lemma set_up_one : forall i n rs, (i < n)%nat -> exists sch, run sch (ready_to i n rs) = Some (ready_to (S i) n rs, bringing_up i) /\ forall P, Forall (smooth P) sch.
Proof.
  intros i n rs H. exists [Go (3 + Z.of_nat i); Go (1 + Z.of_nat i); Go (1 + Z.of_nat i); Go 0; Go 0; Go 0; Go 0]. split; [|intros P; repeat constructor]. change (bringing_up i) with ([Opened i (3 + Z.of_nat i)] ++ [Index i false (1 + Z.of_nat i)] ++ [Index i true (1 + Z.of_nat i)] ++ [Bound i (1 + Z.of_nat i)] ++ [] ++ [] ++ [Usable i (3 + Z.of_nat i)] ++ []). unfold ready_to at 1. rewrite map_Socket_more by auto.
  pose proof drain_turns as DT. assert (DS : exists d, drain_turns = S d) by (unfold drain_turns; exists (pred (Z.to_nat 10000)); lia). destruct DS as [d DS]. clear DT.
  eapply run_cons. { cbn [step m_code go m_socks]. replace (3 + Z.of_nat i <? 0) with false by lia. rewrite nices_fd by (intros; lia). reflexivity. }
  unfold with_socks. cbn [m_code m_fds m_rs m_socks m_got m_rounds m_ev m_failed].
  eapply run_cons. { cbn [step m_code go]. replace (1 + Z.of_nat i <? 0) with false by lia. reflexivity. }
  unfold with_code. cbn [m_code m_fds m_rs m_socks m_got m_rounds m_ev m_failed].
  eapply run_cons. { cbn [step m_code go]. replace (1 + Z.of_nat i <? 0) with false by lia. reflexivity. }
  unfold with_code. cbn [m_code m_fds m_rs m_socks m_got m_rounds m_ev m_failed].
  eapply run_cons. { cbn [step m_code go]. change (0 <? 0) with false. cbn iota. unfold on_sock. cbn [m_socks]. rewrite on_last by reflexivity. reflexivity. }
  unfold with_socks. cbn [m_code m_fds m_rs m_socks m_got m_rounds m_ev m_failed].
  eapply run_cons. { cbn [step m_code go]. change (0 <? 0) with false. replace (1 + Z.of_nat i =? 0) with false by lia. cbn [orb]. reflexivity. }
  unfold with_code. cbn [m_code m_fds m_rs m_socks m_got m_rounds m_ev m_failed].
  eapply run_cons. { cbn [step m_code go]. change (0 <? 0) with false. cbn iota. unfold on_sock. cbn [m_socks]. rewrite on_last by reflexivity. rewrite DS. reflexivity. }
  unfold with_socks. cbn [m_code m_fds m_rs m_socks m_got m_rounds m_ev m_failed].
  eapply run_cons. { cbn [step m_code go]. unfold sock_of. cbn [m_socks]. rewrite find_last by reflexivity. cbn [set_if set_aux k_queue k_fd k_no k_if k_aux m_code m_fds m_rs m_socks m_got m_rounds m_ev m_failed]. reflexivity. }
  cbn [run]. unfold ready_to. rewrite nice_fds_snoc, nices_snoc. reflexivity.
Qed.

Lemma set_up : forall n rs i, (i <= n)%nat -> exists sch, run sch (ready_to 0 n rs) = Some (ready_to i n rs, concat (map bringing_up (seq 0 i))) /\ forall P, Forall (smooth P) sch.
Proof.
  intros n rs. induction i as [|i IH]; intros H; [exists []; split; [auto|constructor]|]. destruct IH as [s1 [R1 S1]]; [lia|]. destruct (set_up_one i n rs) as [s2 [R2 S2]]; [lia|]. exists (s1 ++ s2). split.
  - rewrite seq_S, map_app, concat_app. cbn [map concat Nat.add]. rewrite app_nil_r. eapply run_app; eauto.
  - intros P. apply Forall_app. auto.
Qed.

(** *** What was read is what arrived *)
Definition even (i : nat) (t : list happening) : Prop := taken i t = arrivals_at (1 + Z.of_nat i) t /\ dropped i t = [] /\ untagged i t = false.
Lemma even_app : forall i a b, even i a -> even i b -> even i (a ++ b).
Proof. intros i a b [A1 [A2 A3]] [B1 [B2 B3]]. split; [|split]; [rewrite taken_app, arrivals_at_app; congruence|rewrite dropped_app, A2, B2; auto|rewrite untagged_app, A3, B3; auto]. Qed.

Definition arriving (l : list (nat * rxmsg)) : list happening := map (fun p => Arrived (1 + Z.of_nat (fst p)) (snd p)) l.
Definition taking (l : list (nat * rxmsg)) : list happening := map (fun p => Taken (fst p) (1 + Z.of_nat (fst p), snd p)) l.
Definition mine (i : nat) (l : list (nat * rxmsg)) : list arrival := map (fun p => (1 + Z.of_nat i, snd p)) (filter (fun p => Nat.eqb (fst p) i) l).

Lemma arriving_facts : forall i l, taken i (arriving l) = [] /\ arrivals_at (1 + Z.of_nat i) (arriving l) = mine i l /\ dropped i (arriving l) = [] /\ untagged i (arriving l) = false.
Proof.
  intros i. induction l as [|[j m] l [H1 [H2 [H3 H4]]]]; [auto|]. change (arriving ((j, m) :: l)) with ([Arrived (1 + Z.of_nat j) m] ++ arriving l). rewrite taken_app, arrivals_at_app, dropped_app, untagged_app, H1, H2, H3, H4. split; [auto|]. split; [|auto].
  unfold mine, arrivals_at, arrivals. cbn [flat_map app filter fst]. destruct (Z.eqb_spec (1 + Z.of_nat j) (1 + Z.of_nat i)) as [E|E]; destruct (Nat.eqb_spec j i) as [E1|E1]; try lia; [subst; auto|auto].
Qed.
Lemma taking_facts : forall i l, taken i (taking l) = mine i l /\ arrivals_at (1 + Z.of_nat i) (taking l) = [] /\ dropped i (taking l) = [] /\ untagged i (taking l) = false.
Proof.
  intros i. induction l as [|[j m] l [H1 [H2 [H3 H4]]]]; [auto|]. change (taking ((j, m) :: l)) with ([Taken j (1 + Z.of_nat j, m)] ++ taking l). rewrite taken_app, arrivals_at_app, dropped_app, untagged_app, H1, H2, H3, H4. split; [|auto].
  unfold mine, taken. cbn [flat_map app filter fst]. destruct (Nat.eqb_spec j i) as [E1|E1]; [subst; auto|auto].
Qed.
Lemma even_turn : forall i l, even i (arriving l ++ Turn :: taking l ++ []) /\ map snd (taken i (arriving l ++ Turn :: taking l ++ [])) = map snd (filter (fun p => Nat.eqb (fst p) i) l).
Proof.
  intros i l. destruct (arriving_facts i l) as [A1 [A2 [A3 A4]]]. destruct (taking_facts i l) as [B1 [B2 [B3 B4]]]. rewrite app_nil_r. change (Turn :: taking l) with ([Turn] ++ taking l).
  assert (ET : taken i (arriving l ++ [Turn] ++ taking l) = mine i l) by (rewrite !taken_app, A1, B1; auto). split.
  - split; [rewrite ET, !arrivals_at_app, A2, B2; cbn [app arrivals_at arrivals flat_map filter]; rewrite app_nil_r; auto|]. split; [rewrite !dropped_app, A3, B3; auto|rewrite !untagged_app, A4, B4; auto].
  - rewrite ET. unfold mine. rewrite map_map. auto.
Qed.

(** *** A turn *)
Definition up (n : nat) (c : list instr) (q : nat -> list arrival) (rs : list resource) (gt : list (nat * rxmsg)) (rds : list round) (ev : list event) : machine :=
  MkM c (nice_fds n) rs (nices q n) gt rds ev false.

Fixpoint deliver (l : list (nat * rxmsg)) : list choice := match l with [] => [] | (i, m) :: r => Arrive (1 + Z.of_nat i) m :: deliver r end.
Fixpoint filling (q : nat -> list arrival) (l : list (nat * rxmsg)) : nat -> list arrival :=
  match l with [] => q | (i, m) :: r => filling (upd q i (q i ++ [(1 + Z.of_nat i, m)])) r end.

Lemma deliver_run : forall l n c q rs gt rds ev, run (deliver l) (up n c q rs gt rds ev) = Some (up n c (filling q l) rs gt rds ev, arriving l).
Proof.
  induction l as [|[i m] l IH]; intros n c q rs gt rds ev; [auto|]. pose proof (IH n c (upd q i (q i ++ [(1 + Z.of_nat i, m)])) rs gt rds ev) as R. cbn [deliver]. change (arriving ((i, m) :: l)) with ([Arrived (1 + Z.of_nat i) m] ++ arriving l). eapply run_cons; [|exact R]. cbn [step]. replace (0 <? 1 + Z.of_nat i) with true by lia. unfold with_socks, up. cbn [m_code m_fds m_rs m_socks m_got m_rounds m_ev m_failed]. rewrite nices_arrive. reflexivity.
Qed.

Lemma filling_at : forall l q j, filling q l j = q j ++ map (fun p => (1 + Z.of_nat j, snd p)) (filter (fun p => Nat.eqb (fst p) j) l).
Proof.
  induction l as [|[i m] l IH]; intros q j; cbn [filling filter map]; [rewrite app_nil_r; auto|]. rewrite IH. unfold upd. cbn [fst]. rewrite (Nat.eqb_sym i j). destruct (Nat.eqb_spec j i) as [->|N]; [|auto]. cbn [map snd]. rewrite <- app_assoc. auto.
Qed.

(** What is read in one turn *)
Fixpoint gets_of (rd : round) (i : nat) (rs : list resource) : list (nat * rxmsg) :=
  match rs with
  | [] => []
  | r :: rest => match (if has_rx r then rd_rx rd i else None) with Some m => [(i, m)] | None => [] end ++ gets_of rd (S i) rest
  end.
Definition is_ready (rd : round) (rs : list resource) (i : nat) : bool :=
  match nth_error rs i with Some r => has_rx r && is_some (rd_rx rd i) | None => false end.

Lemma gets_range : forall rd rs i p, In p (gets_of rd i rs) -> (i <= fst p < i + length rs)%nat.
Proof.
  intros rd. induction rs as [|r rs IH]; intros i p H; [destruct H|]. cbn [gets_of length] in *. apply in_app_or in H. destruct H as [H|H]; [|specialize (IH _ _ H); lia]. destruct (if has_rx r then _ else _); [|destruct H]. destruct H as [<-|[]]. cbn [fst]. lia.
Qed.

Lemma gets_in : forall rd rs i p, In p (gets_of rd i rs) -> rd_rx rd (fst p) = Some (snd p).
Proof.
  intros rd. induction rs as [|r rs IH]; intros i p H; [destruct H|]. cbn [gets_of] in H. apply in_app_or in H. destruct H as [H|H]; [|eauto]. destruct (has_rx r); [|destruct H]. destruct (rd_rx rd i) eqn:E; [|destruct H]. destruct H as [<-|[]]. auto.
Qed.

Lemma gets_mine : forall rd rs i j, map snd (filter (fun p => Nat.eqb (fst p) j) (gets_of rd i rs)) = (if (i <=? j)%nat then match nth_error rs (j - i) with Some r => if has_rx r then match rd_rx rd j with Some m => [m] | None => [] end else [] | None => [] end else []).
Proof.
  intros rd. induction rs as [|r rs IH]; intros i j; cbn [gets_of].
  - cbn [filter map]. destruct (i <=? j)%nat; [|auto]. destruct (j - i)%nat; auto.
  - rewrite filter_app, map_app, IH. clear IH. destruct (Nat.leb_spec i j) as [L|L].
    + destruct (Nat.eq_dec i j) as [->|N].
      * rewrite Nat.sub_diag. cbn [nth_error]. destruct (Nat.leb_spec (S j) j); [lia|]. rewrite app_nil_r. destruct (has_rx r); [|auto]. destruct (rd_rx rd j); [|auto]. cbn [filter fst]. rewrite Nat.eqb_refl. auto.
      * replace (j - i)%nat with (S (j - S i)) by lia. cbn [nth_error]. destruct (Nat.leb_spec (S i) j); [|lia]. destruct (if has_rx r then rd_rx rd i else None); [|auto]. cbn [filter fst]. destruct (Nat.eqb_spec i j); [lia|auto].
    + destruct (Nat.leb_spec (S i) j); [lia|]. rewrite app_nil_r. destruct (if has_rx r then rd_rx rd i else None); [|auto]. cbn [filter fst]. destruct (Nat.eqb_spec i j); [lia|auto].
Qed.

Lemma gets_fst : forall rd rs i, map fst (gets_of rd i rs) = filter (fun j => match nth_error rs (j - i) with Some r => has_rx r && is_some (rd_rx rd j) | None => false end) (seq i (length rs)).
Proof.
  intros rd. induction rs as [|r rs IH]; intros i; [auto|]. cbn [gets_of length seq filter]. rewrite Nat.sub_diag. cbn [nth_error]. rewrite map_app, IH.
  assert (E : filter (fun j => match nth_error rs (j - S i) with Some r0 => has_rx r0 && is_some (rd_rx rd j) | None => false end) (seq (S i) (length rs)) = filter (fun j => match nth_error (r :: rs) (j - i) with Some r0 => has_rx r0 && is_some (rd_rx rd j) | None => false end) (seq (S i) (length rs))).
  { apply filter_ext_in. intros j Hj. apply in_seq in Hj. replace (j - i)%nat with (S (j - S i)) by lia. auto. }
  rewrite E. destruct (has_rx r); cbn [andb map app]; [|auto]. destruct (rd_rx rd i); cbn [is_some map app]; auto.
Qed.

Lemma gets_got : forall rd rs i j, got (gets_of rd i rs) j = (if (i <=? j)%nat then match nth_error rs (j - i) with Some r => if has_rx r then rd_rx rd j else None | None => None end else None).
Proof.
  intros rd. induction rs as [|r rs IH]; intros i j; cbn [gets_of].
  - unfold got. cbn [find]. destruct (i <=? j)%nat; [|auto]. destruct (j - i)%nat; auto.
  - assert (G : forall a b, got (a ++ b) j = match got a j with Some m => Some m | None => got b j end).
    { clear. intros a b. unfold got. induction a as [|x a IH]; [auto|]. cbn [app find]. destruct (Nat.eqb _ _); auto. }
    rewrite G, IH. clear G IH. destruct (Nat.leb_spec i j) as [L|L].
    + destruct (Nat.eq_dec i j) as [->|N].
      * rewrite Nat.sub_diag. cbn [nth_error]. destruct (Nat.leb_spec (S j) j); [lia|]. destruct (if has_rx r then _ else _) eqn:E; [|auto]. unfold got. cbn [find fst]. rewrite Nat.eqb_refl. auto.
      * replace (j - i)%nat with (S (j - S i)) by lia. cbn [nth_error]. destruct (Nat.leb_spec (S i) j); [|lia]. destruct (if has_rx r then _ else _) eqn:E; [|auto]. unfold got at 1. cbn [find fst]. destruct (Nat.eqb_spec i j); [lia|auto].
    + destruct (Nat.leb_spec (S i) j); [lia|]. destruct (if has_rx r then _ else _) eqn:E; [|auto]. unfold got. cbn [find fst]. destruct (Nat.eqb_spec i j); [lia|auto].
Qed.

Lemma rx_all_ext : forall rd rd' rs i, (forall j r, nth_error rs j = Some r -> (if has_rx r then rd_rx rd (i + j) else None) = (if has_rx r then rd_rx rd' (i + j) else None)) -> rx_all rd i rs = rx_all rd' i rs.
Proof.
  intros rd rd'. induction rs as [|r rs IH]; intros i H; [auto|]. cbn [rx_all]. pose proof (H 0%nat r eq_refl) as H0. rewrite Nat.add_0_r in H0. rewrite H0. rewrite (IH (S i)); [auto|]. intros j r' Hj. specialize (H (S j) r' Hj). replace (i + S j)%nat with (S i + j)%nat in H by lia. auto.
Qed.

Lemma process_gets : forall rd rs, process (MkRound (rd_select rd) false (got (gets_of rd 0 rs)) (rd_wr rd) (rd_send rd)) rs = process rd rs.
Proof.
  intros rd rs. unfold process. cbn [rd_wr rd_send]. rewrite (rx_all_ext _ rd); [auto|]. intros j r Hj. cbn [rd_rx Nat.add]. rewrite gets_got. cbn [Nat.leb]. rewrite Nat.sub_0_r, Hj. destruct (has_rx r); auto.
Qed.

Lemma read_run : forall l n c q rs gt rds ev, NoDup (map fst l) -> (forall p, In p l -> (fst p < n)%nat) -> (forall p, In p l -> q (fst p) = [(1 + Z.of_nat (fst p), snd p)]) -> (forall j, ~ In j (map fst l) -> q j = []) ->
  run (map (fun _ => Go 0) l) (up n (map Recv (map fst l) ++ c) q rs gt rds ev) = Some (up n c empty rs (gt ++ l) rds ev, taking l).
Proof.
  induction l as [|[i m] l IH]; intros n c q rs gt rds ev ND B Q Z0.
  - cbn [map app run]. rewrite app_nil_r. unfold up. rewrite (nices_ext q empty); [auto|]. intros j _. apply Z0. auto.
  - cbn [map fst app] in *. apply NoDup_cons_iff in ND. destruct ND as [N1 N2]. change (taking ((i, m) :: l)) with ([Taken i (1 + Z.of_nat i, m)] ++ taking l). assert (R : run (map (fun _ => Go 0) l) (up n (map Recv (map fst l) ++ c) (upd q i []) rs (gt ++ [(i, m)]) rds ev) = Some (up n c empty rs ((gt ++ [(i, m)]) ++ l) rds ev, taking l)); [apply IH; auto|].
    + intros p Hp. apply B. right. auto.
    + intros p Hp. unfold upd. destruct (Nat.eqb_spec (fst p) i) as [E|E]; [destruct N1; rewrite <- E; apply in_map; auto|]. apply Q. right. auto.
    + intros j Hj. unfold upd. destruct (Nat.eqb_spec j i) as [E|E]; [auto|]. apply Z0. intros [X|X]; [congruence|auto].
    + rewrite <- app_assoc in R. cbn [app] in R. eapply run_cons; [|exact R]. specialize (B _ (or_introl eq_refl)). specialize (Q _ (or_introl eq_refl)). cbn [fst snd] in B, Q. unfold up at 1. cbn [step m_code go m_fds]. rewrite nice_fds_nth by auto. unfold sock_of. cbn [m_socks]. rewrite nices_find by auto. change (0 <? 0) with false. cbn iota. unfold nice at 1. cbn [k_queue]. rewrite Q. unfold on_sock. cbn [m_socks m_fds m_rs m_got m_rounds m_ev m_failed]. pose proof (nices_on q n i [] (set_queue []) B (fun _ => eq_refl)) as NO. unfold up. rewrite <- NO. reflexivity.
Qed.

Lemma up_turn : forall n rd rs rds ev rs1 ev1, length rs = n -> waits rs = true -> rd_late rd = false -> 0 < rd_select rd -> process rd rs = Ret (rs1, ev1) ->
  exists sch rds1, run sch (up n (tail n) empty rs [] rds ev) = Some (up n (tail n) empty rs1 [] rds1 (ev ++ ev1), arriving (gets_of rd 0 rs) ++ Turn :: taking (gets_of rd 0 rs) ++ []) /\
    forall (P : rxmsg -> Prop), (forall i m, rd_rx rd i = Some m -> P m) -> (forall k, rd_send rd k = true) -> Forall (smooth P) sch.
Proof.
  intros n rd rs rds ev rs1 ev1 L W LT SL P. set (l := gets_of rd 0 rs). pose proof (deliver_run l n (tail n) empty rs [] rds ev) as R1.
  assert (FS : map fst l = filter (is_ready rd rs) (seq 0 n)). { unfold l. rewrite gets_fst, L. apply filter_ext. intros j. rewrite Nat.sub_0_r. auto. }
  assert (ND : NoDup (map fst l)) by (rewrite FS; apply NoDup_filter, seq_NoDup).
  assert (QA : forall p, In p l -> filling empty l (fst p) = [(1 + Z.of_nat (fst p), snd p)]).
  { intros p Hp. rewrite filling_at. cbn [empty app]. assert (E : filter (fun p0 => Nat.eqb (fst p0) (fst p)) l = [p]); [|rewrite E; auto]. clear - ND Hp. induction l as [|x l IH]; [destruct Hp|]. cbn [map] in ND. apply NoDup_cons_iff in ND. destruct ND as [N1 N2]. cbn [filter]. destruct Hp as [->|Hp].
    - rewrite Nat.eqb_refl. f_equal. clear - N1. induction l as [|y l IH]; [auto|]. cbn [map filter] in *. destruct (Nat.eqb_spec (fst y) (fst p)) as [E|E]; [destruct N1; left; auto|]. apply IH. intros X. apply N1. right. auto.
    - destruct (Nat.eqb_spec (fst x) (fst p)) as [E|E]; [destruct N1; rewrite E; apply in_map; auto|]. auto. }
  assert (QN : forall j, ~ In j (map fst l) -> filling empty l j = []).
  { intros j Hj. rewrite filling_at. cbn [empty app]. clear - Hj. induction l as [|y l IH]; [auto|]. cbn [map filter] in *. destruct (Nat.eqb_spec (fst y) j) as [E|E]; [destruct Hj; left; auto|]. apply IH. intros X. apply Hj. right. auto. }
  assert (R2 : run (map (fun _ => Go 0) l) (up n (map Recv (map fst l) ++ Serve (rd_select rd) (rd_wr rd) (rd_send rd) :: tail n) (filling empty l) rs [] rds ev) = Some (up n (Serve (rd_select rd) (rd_wr rd) (rd_send rd) :: tail n) empty rs ([] ++ l) rds ev, taking l)).
  { apply read_run; auto. intros p Hp. apply gets_range in Hp. rewrite L in Hp. lia. }
  exists (deliver l ++ Wake (rd_select rd) false (is_ready rd rs) (rd_wr rd) (rd_send rd) :: map (fun _ => Go 0) l ++ [Go 0]). eexists. split.
  2: { intros P0 PM PS. apply Forall_app. split; [|constructor; [exact PS|apply Forall_app; split; [apply Forall_forall; intros c Hc; apply in_map_iff in Hc; destruct Hc as [? [<- _]]; exact I|repeat constructor]]].
    assert (GP : forall p, In p l -> P0 (snd p)) by (intros p Hp; eapply PM, gets_in; exact Hp). clear - GP. induction l as [|[i m] l IH]; [constructor|]. cbn [deliver]. constructor; [apply (GP (i, m)); left; auto|apply IH; intros p Hp; apply GP; right; auto]. }
  eapply run_app; [exact R1|]. eapply (run_cons _ _ _ _ [Turn]).
  { unfold up at 1, tail. cbn [step m_code]. unfold wake. cbn [m_rs m_fds]. unfold waits in W. rewrite W. replace (false || (rd_select rd <=? 0)) with false by (cbn [orb]; lia). cbv zeta.
    match goal with |- context [forallb ?f ?s] => assert (FA : forallb f s = true) end.
    { apply forallb_forall. intros j Hj. apply in_seq in Hj. destruct (is_ready rd rs j) eqn:RD; [|auto]. cbn [negb orb]. assert (IJ : In j (map fst l)) by (rewrite FS; apply filter_In; split; [apply in_seq; lia|auto]). unfold is_ready in RD. destruct (nth_error rs j) as [r|]; [|discriminate RD]. apply andb_prop in RD. destruct RD as [RD _]. rewrite RD. cbn [andb]. rewrite nice_fds_nth by lia. unfold hears, sock_of. cbn [m_socks]. rewrite nices_find by lia. unfold nice. cbn [k_queue]. apply in_map_iff in IJ. destruct IJ as [p [<- Hp]]. rewrite QA by auto. auto. }
    rewrite FA. rewrite L, <- FS. reflexivity. }
  eapply run_app; [exact R2|]. cbn [app]. eapply (run_cons _ _ _ _ [] _ []); [|reflexivity]. unfold up at 1. cbn [step m_code go m_got m_rs]. unfold l. rewrite process_gets, P. reflexivity.
Qed.

(** *** The end *)
Definition idle (t : list happening) (sch : list choice) : Prop := (forall i, even i t /\ taken i t = []) /\ forall P, Forall (smooth P) sch.
Lemma idle_cons : forall h c t sch, idle t sch -> match h with Arrived _ _ | Taken _ _ | Dropped _ _ | Untagged _ => False | _ => True end -> (forall P, smooth P c) -> idle (h :: t) (c :: sch).
Proof.
  intros h c t sch [H1 H2] H H3. split; [|intros P; constructor; auto]. intros i. destruct (H1 i) as [E T]. destruct h; try contradiction; (split; [apply (even_app i [_] t); [split; [|split]; reflexivity|exact E]|exact T]).
Qed.
Lemma idle_nil : idle [] [].
Proof. split; [split; [split; [|split]|]; reflexivity|constructor]. Qed.

Lemma close_all : forall k n j q rs rds ev, (n - j)%nat = k -> (j <= n)%nat -> exists sch m tr, run sch (MkM (map Close (seq j (n - j))) (nice_fds n) rs q [] rds ev false) = Some (m, tr) /\ idle tr sch /\ m_code m = [] /\ m_rs m = rs /\ m_ev m = ev /\ m_failed m = false.
Proof.
  induction k as [|k IH]; intros n j q rs rds ev E L.
  - rewrite E. exists []. do 2 eexists. split; [reflexivity|]. split; [apply idle_nil|]. auto.
  - rewrite closes_from by lia. destruct (IH n (S j) (filter (fun s => negb (k_fd s =? 3 + Z.of_nat j)) q) rs rds ev) as [sch [m [tr [R [I X]]]]]; [lia|lia|]. exists (Go 0 :: sch), m, ([Closed j (3 + Z.of_nat j)] ++ tr). split; [|split; [apply idle_cons; auto; intros; exact Logic.I|exact X]]. eapply run_cons; [|exact R]. cbn [step m_code go m_fds]. rewrite nice_fds_nth by lia. reflexivity.
Qed.

(** What was read from [i] in all turns, and what arrived *)
Definition settled (rds : list round) (rs : list resource) (t : list happening) (sch : list choice) : Prop :=
  (forall i, even i t) /\ (forall i r, nth_error rs i = Some r -> has_rx r = true -> map snd (taken i t) = delivered i (served rds)) /\
  forall (P : rxmsg -> Prop), (forall rd i m, In rd rds -> rd_rx rd i = Some m -> P m) -> (forall rd k, In rd rds -> rd_send rd k = true) -> Forall (smooth P) sch.

Lemma settled_idle : forall rds rs t sch, idle t sch -> served rds = [] -> settled rds rs t sch.
Proof. intros rds rs t sch [H1 H2] E. split; [intros i; apply H1|]. split; [|auto]. intros i r _ _. destruct (H1 i) as [_ ->]. rewrite E. auto. Qed.

Lemma loop_run : forall rds n rs rds0 ev rs2 ev2, length rs = n -> main_loop rds rs = Ret (rs2, ev2) -> Forall homog rs -> NoDup (map r_name rs) ->
  exists sch m tr, run sch (up n (tail n) empty rs [] rds0 ev) = Some (m, tr) /\ settled rds rs tr sch /\ m_code m = [] /\ m_rs m = rs2 /\ m_ev m = ev ++ ev2 /\ m_failed m = false.
Proof.
  assert (OV : forall n rs rds0 ev, waits rs = true -> exists sch m tr, run sch (up n (tail n) empty rs [] rds0 ev) = Some (m, tr) /\ idle tr sch /\ m_code m = [] /\ m_rs m = rs /\ m_ev m = ev ++ [] /\ m_failed m = false).
  { intros n rs rds0 ev W. destruct (close_all n n 0 (nices empty n) rs (rds0 ++ [MkRound 0 true (fun _ => None) (fun _ => true) (fun _ => true)]) ev) as [sch [m [tr [R [I X]]]]]; [lia|lia|]. exists (Wake 0 true (fun _ => true) (fun _ => true) (fun _ => true) :: sch), m, ([Turn] ++ tr). rewrite app_nil_r. split; [|split; [apply idle_cons; auto; intros P k; reflexivity|exact X]]. eapply run_cons; [|exact R]. unfold up. rewrite tail_closes. cbn [step m_code]. unfold wake. cbn [m_rs]. unfold waits in W. rewrite W. reflexivity. }
  assert (NO : forall n rs rds rds0 ev, waits rs = false -> exists sch m tr, run sch (up n (tail n) empty rs [] rds0 ev) = Some (m, tr) /\ settled rds rs tr sch /\ m_code m = [] /\ m_rs m = rs /\ m_ev m = ev ++ [] /\ m_failed m = false).
  { intros n rs rds rds0 ev W. destruct (close_all n n 0 (nices empty n) rs rds0 ev) as [sch [m [tr [R [I X]]]]]; [lia|lia|]. exists (Go 0 :: sch), m, ([] ++ tr). rewrite app_nil_r. split; [|split; [|exact X]].
    - eapply run_cons; [|exact R]. unfold up. rewrite tail_closes. cbn [step m_code go m_rs]. fold (waits rs). rewrite W. reflexivity.
    - destruct I as [I1 I2]. split; [intros i; apply I1|]. split; [|intros P _ _; constructor; [exact Logic.I|auto]]. intros i r H1 H2. assert (waits rs = true); [|congruence]. unfold waits. apply existsb_exists. exists r. split; [eapply nth_error_In; eauto|]. rewrite H2. auto. }
  induction rds as [|rd rds IH]; intros n rs rds0 ev rs2 ev2 L H HH HN; cbn [main_loop] in H; fold (waits rs) in H; destruct (waits rs) eqn:W.
  2, 4: apply ret_inj, pair_inj in H; destruct H as [<- <-]; auto.
  - apply ret_inj, pair_inj in H; destruct H as [<- <-]. destruct (OV n rs rds0 ev W) as [sch [m [tr [R [I X]]]]]. exists sch, m, tr. split; [auto|]. split; [apply settled_idle; auto|auto].
  - destruct (rd_late rd) eqn:LT; [|destruct (Z.leb_spec (rd_select rd) 0) as [SL|SL]].
    1, 2: apply ret_inj, pair_inj in H; destruct H as [<- <-]; destruct (OV n rs rds0 ev W) as [sch [m [tr [R [I X]]]]]; exists sch, m, tr; (split; [auto|]); (split; [apply settled_idle; [auto|cbn [served]; rewrite LT; try reflexivity; replace (rd_select rd <=? 0) with true by lia; reflexivity]|auto]).
    binv H. destruct a as [rs1 ev1]. binv H. destruct a as [rs3 ev3]. apply ret_inj, pair_inj in H. destruct H as [<- <-]. destruct (up_turn n rd rs rds0 ev rs1 ev1 L W LT SL E) as [s1 [rds1 [R1 S1]]].
    destruct (process_sim _ _ _ _ E HH HN) as [A1 [A2 _]].
    destruct (IH n rs1 rds1 (ev ++ ev1) rs3 ev3) as [s2 [m [t2 [R2 [[Y1 [Y2 Y3]] X]]]]]; [rewrite (process_length _ _ _ _ E); auto|auto|auto|rewrite (evolves_names _ _ A2); auto|]. exists (s1 ++ s2), m. eexists. split; [eapply run_app; eauto|]. split; [|rewrite app_assoc; exact X].
    split; [|split].
    + intros i. apply even_app; [apply even_turn|auto].
    + intros i r H1 H2. rewrite taken_app, map_app. rewrite (proj2 (even_turn i _)). rewrite gets_mine. cbn [Nat.leb]. rewrite Nat.sub_0_r, H1, H2. assert (X1 : exists r1, nth_error rs1 i = Some r1 /\ has_rx r1 = true).
      { pose proof (has_rx_evolves _ _ A2) as HV. pose proof (f_equal (fun l => nth_error l i) HV) as HW. cbn beta in HW. rewrite !nth_error_map, H1 in HW. cbn [option_map] in HW. destruct (nth_error rs1 i) as [r1|]; [|discriminate HW]. exists r1. split; [auto|]. cbn [option_map] in HW. congruence. }
      destruct X1 as [r1 [X1 X2]]. pose proof (Y2 i r1 X1 X2) as YY. cbn [served]. rewrite LT. replace (rd_select rd <=? 0) with false by lia. cbn [orb]. unfold delivered in *. cbn [flat_map]. rewrite <- YY. reflexivity.
    + intros P PM PS. apply Forall_app. split; [apply S1; [intros i m0 Hm; eapply PM; [left; reflexivity|exact Hm]|intros k; apply PS; left; auto]|apply Y3; [intros rd1 i m0 H1; apply PM; right; auto|intros rd1 k H1; apply PS; right; auto]].
Qed.

Lemma bringing_listens : forall n i t, (i < n)%nat -> even i t -> exists since, listens i (1 + Z.of_nat i) (concat (map bringing_up (seq 0 n)) ++ t) since /\ arrivals_at (1 + Z.of_nat i) since = arrivals_at (1 + Z.of_nat i) t /\ taken i (concat (map bringing_up (seq 0 n)) ++ t) = taken i t.
Proof.
  intros n i t H [E1 [E2 E3]]. assert (Q : forall l, arrivals_at (1 + Z.of_nat i) (concat (map bringing_up l)) = [] /\ taken i (concat (map bringing_up l)) = [] /\ dropped i (concat (map bringing_up l)) = [] /\ untagged i (concat (map bringing_up l)) = false).
  { induction l as [|j l IH]; [auto|]. exact IH. }
  destruct (Q (seq 0 n)) as [Q1 [Q2 [Q3 Q4]]]. destruct (Q (seq (S i) (n - S i))) as [R1 _].
  assert (ES : seq 0 n = seq 0 i ++ i :: seq (S i) (n - S i)). { replace n with (i + S (n - S i))%nat at 1 by lia. rewrite seq_app. cbn [seq Nat.add]. auto. }
  exists (concat (map bringing_up (seq (S i) (n - S i))) ++ t). split; [|split; [rewrite arrivals_at_app, R1; auto|rewrite taken_app, Q2; auto]].
  exists (3 + Z.of_nat i), (concat (map bringing_up (seq 0 i))), [Index i false (1 + Z.of_nat i); Index i true (1 + Z.of_nat i)], []. split; [|split; [lia|split; [intros []|split]]].
  - unfold comes_up. rewrite ES, map_app, concat_app. cbn [map concat]. rewrite <- !app_assoc. reflexivity.
  - rewrite dropped_app, Q3, E2. cbn [app length]. lia.
  - rewrite untagged_app, Q4, E3. auto.
Qed.

Lemma runs_listens : forall ws e cs r ev, runs ws e cs r ev -> exists sch tr rds, executes ws sch cs r ev tr rds /\ ~ trouble tr /\
  (forall i ifn, nth_error (interfaces cs) i = Some ifn -> exists ix since, listens i ix tr since /\ taken i tr = arrivals_at ix since /\
    ((exists c, In c (commands_on ifn cs) /\ is_rx c = true) -> map snd (arrivals_at ix since) = delivered i (served (e_rounds e)))) /\
  forall (P : rxmsg -> Prop), (forall rd i m, In rd (e_rounds e) -> rd_rx rd i = Some m -> P m) -> (forall rd k, In rd (e_rounds e) -> rd_send rd k = true) -> Forall (smooth P) sch.
Proof.
  intros ws e cs r ev [[cs0 [HP HF]] [HO HA]]. unfold argc_cmds in HA. rewrite HP in HA. cbn [bind] in HA. unfold exec_cmds in HA. destruct (parsed_good _ _ HP) as [G1 G2]. destruct (filled_all_ready _ _ _ G1 G1 HF) as [F1 F2]. pose proof (undefined_of_filled _ _ HF) as HU.
  assert (EQ : map (paired cs0) cs0 = cs). { eapply Forall2_filled_eq; [|exact HF]. apply Forall2_map_filled. intros c Hc. apply undefined_nil; auto. }
  destruct (grouping cs (ready_fits _ F1) ltac:(lia)) as [rs [ER HG]]. pose proof (pair_cmds_spec cs0) as PS. rewrite HU in PS. cbn [length Z.of_nat] in PS. rewrite EQ in PS. rewrite PS in HA. change (negb (0 =? 0)) with false in HA. cbn iota in HA. binv HA. binv HA. rewrite ER in HA. cbn [bind] in HA.
  replace (forallb _ rs) with true in HA. 2: { symmetry. apply forallb_forall. intros x Hx. apply HO. rewrite <- (gr_names _ _ HG). apply in_map. auto. }
  binv HA. destruct a1 as [rs1 ev4]. destruct (check_all rs1) as [err2 ev5] eqn:EK. apply ret_inj, pair_inj in HA. destruct HA as [<- <-].
  destruct (set_up (length rs) rs (length rs) ltac:(lia)) as [s1 [R1 S1]]. set (t1 := concat _) in R1. destruct (loop_run _ (length rs) rs [] [] rs1 ev4 eq_refl E1 (grouped_homog _ _ HG)) as [s2 [m [t2 [R2 [[Y1 [Y2 Y3]] [C1 [C2 [C3 C4]]]]]]]].
  { rewrite (gr_names _ _ HG). apply distinct_nodup. }
  assert (R : run (s1 ++ s2) (begin rs) = Some (m, t1 ++ t2)).
  { eapply run_app; [|exact R2]. assert (B : begin rs = ready_to 0 (length rs) rs) by (unfold begin, ready_to, more; rewrite Nat.sub_0_r; reflexivity). rewrite B, R1. unfold ready_to, up. rewrite more_end. auto. }
  assert (X : exec_with cs0 (s1 ++ s2) = Ret (Some (err2, name_events cs0 ++ [] ++ a ++ a0 ++ ev4 ++ ev5, t1 ++ t2, m_rounds m))).
  { unfold exec_with. rewrite PS. change (negb (0 =? 0)) with false. cbn iota. rewrite E. cbn [bind]. rewrite E0. cbn [bind]. rewrite ER. cbn [bind]. rewrite R. destruct m as [c fds rs3 ss gt rd ev3 fl]. cbn [m_code m_rs m_ev m_failed m_rounds] in *. subst. rewrite EK. reflexivity. }
  exists (s1 ++ s2), (t1 ++ t2), (m_rounds m). split; [|split; [|split]].
  - exists cs0. split; [auto|]. split; [auto|]. rewrite X. reflexivity.
  - intros T. destruct (run_sound _ _ _ _ R) as [_ HS]. apply broke_trouble in T. pose proof (so_faults _ _ _ _ HS) as FA. unfold faults in FA. rewrite T, C1, C4 in FA. discriminate FA.
  - intros i ifn HI. pose proof (grouped_nth _ _ _ _ HG HI) as HR. assert (LI : (i < length rs)%nat) by (apply nth_error_Some; congruence).
    destruct (bringing_listens (length rs) i t2 LI (Y1 i)) as [since [B1 [B2 B3]]]. exists (1 + Z.of_nat i), since. split; [exact B1|]. destruct (Y1 i) as [V _]. split; [unfold t1; rewrite B3, B2; auto|]. intros [c [HC1 HC2]]. rewrite B2, <- V. apply (Y2 _ _ HR). unfold has_rx. apply existsb_exists. exists c. auto.
  - intros P PM PSD. apply Forall_app. auto.
Qed.

Lemma runs_executes : forall ws e cs r ev, runs ws e cs r ev -> exists sch tr rds, executes ws sch cs r ev tr rds /\ ~ trouble tr /\
  forall i ifn, nth_error (interfaces cs) i = Some ifn -> exists ix since, listens i ix tr since /\ taken i tr = arrivals_at ix since /\
    ((exists c, In c (commands_on ifn cs) /\ is_rx c = true) -> map snd (arrivals_at ix since) = delivered i (served (e_rounds e))).
Proof. intros ws e cs r ev H. destruct (runs_listens _ _ _ _ _ H) as [sch [tr [rds [H1 [H2 [H3 _]]]]]]. exists sch, tr, rds. auto. Qed.

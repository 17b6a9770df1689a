(** The checksum computation (C21). *)

From Verif Require Import PTextIp Fill SpecSum SpecFrame.

Definition zsum (l : list Z) : Z := fold_right Z.add 0 l.

Lemma list_ind2 : forall (P : list Z -> Prop), P [] -> (forall x, P [x]) -> (forall x y r, P r -> P (x :: y :: r)) -> forall l, P l.
Proof.
  intros P H0 H1 H2. assert (K : forall n l, (length l <= n)%nat -> P l).
  { induction n as [|n IH]; intros [|x [|y r]] Hl; auto; cbn in Hl; try lia. apply H2. apply IH. lia. }
  intros l. apply (K (length l)). lia.
Qed.

Lemma ones_fold : forall ws a, Forall (fun w => 0 <= w <= 65535) ws -> 0 <= a <= 65535 ->
  let r := fold_left ones_add ws a in
  0 <= r <= 65535 /\ (exists k, a + zsum ws = r + 65535 * k) /\ (r = 0 <-> a + zsum ws = 0) /\ 0 <= zsum ws.
Proof.
  induction ws as [|w ws IH]; intros a Hw Ha; cbn [fold_left zsum fold_right].
  - cbv zeta. repeat split; try lia. exists 0. lia.
  - pose proof (Forall_inv Hw) as H0. cbv beta in H0. apply Forall_inv_tail in Hw.
    assert (Hn : 0 <= ones_add a w <= 65535 /\ (ones_add a w = a + w \/ ones_add a w = a + w - 65535 /\ 65536 <= a + w)).
    { unfold ones_add. destruct (Z.ltb_spec (a + w) 65536); lia. }
    destruct (IH (ones_add a w) Hw ltac:(lia)) as [H1 [[k H2] [H3 H4]]]. cbv zeta. fold (zsum ws). split; [auto|]. split; [|split; [|lia]].
    + destruct Hn as [_ [E|[E _]]]; [exists k|exists (k + 1)]; lia.
    + rewrite H3. lia.
Qed.

Lemma words16_ok : forall b, bytes_ok b -> Forall (fun w => 0 <= w <= 65535) (words16 b).
Proof.
  apply (list_ind2 (fun b => bytes_ok b -> Forall (fun w => 0 <= w <= 65535) (words16 b))); cbn [words16].
  - constructor.
  - intros x H. apply Forall_inv in H. unfold byte_ok in H. constructor; [lia|constructor].
  - intros x y r IH H. pose proof (Forall_inv H) as H1. apply Forall_inv_tail in H. pose proof (Forall_inv H) as H2. apply Forall_inv_tail in H.
    unfold byte_ok in *. constructor; [lia|auto].
Qed.

Lemma host_words : forall b, bytes_ok b -> exists k, zsum (words16 b) = 256 * host_sum b - 65535 * k /\ 0 <= k /\
  0 <= host_sum b /\ (host_sum b = 0 <-> zsum (words16 b) = 0) /\ 2 * host_sum b <= 65535 * (zlen b + 1) /\ 0 <= zsum (words16 b).
Proof.
  apply (list_ind2 (fun b => bytes_ok b -> exists k, zsum (words16 b) = 256 * host_sum b - 65535 * k /\ 0 <= k /\
    0 <= host_sum b /\ (host_sum b = 0 <-> zsum (words16 b) = 0) /\ 2 * host_sum b <= 65535 * (zlen b + 1) /\ 0 <= zsum (words16 b)));
    cbn [words16 host_sum zsum fold_right].
  - intros _. exists 0. change (zlen []) with 0. lia.
  - intros x H. apply Forall_inv in H. unfold byte_ok in H. exists 0. change (zlen [x]) with 1. lia.
  - intros x y r IH H. pose proof (Forall_inv H) as H1. apply Forall_inv_tail in H. pose proof (Forall_inv H) as H2. apply Forall_inv_tail in H.
    unfold byte_ok in *. destruct (IH H) as [k [K1 [K2 [K3 [K4 [K5 K6]]]]]]. fold (zsum (words16 r)). exists (k + y).
    assert (E : zlen (x :: y :: r) = zlen r + 2) by (unfold zlen; cbn [length]; lia). rewrite E. lia.
Qed.

Lemma verifies_iff : forall b, bytes_ok b -> (verifies b <-> (exists k, host_sum b = 65535 * k) /\ 0 < host_sum b).
Proof.
  intros b Hb. unfold verifies, ones_sum.
  destruct (ones_fold (words16 b) 0 (words16_ok b Hb) ltac:(lia)) as [H1 [[k H2] [H3 H4]]].
  destruct (host_words b Hb) as [m [K1 [K2 [K3 [K4 [K5 K6]]]]]]. set (r := fold_left ones_add (words16 b) 0) in *.
  split.
  - intros E. split; [|lia]. (* 256 is invertible modulo 65535 *)
    exists (256 * (1 + k + m) - host_sum b). lia.
  - intros [[q Hq] Hp].
    assert (Hr : r = 65535 * (256 * q - m - k)) by lia. assert (r <> 0) by lia. lia.
Qed.

Lemma host_sum_app : forall p b, Nat.Even (length p) -> host_sum (p ++ b) = host_sum p + host_sum b.
Proof.
  apply (list_ind2 (fun p => forall b, Nat.Even (length p) -> host_sum (p ++ b) = host_sum p + host_sum b)).
  - intros. cbn. lia.
  - intros x b [k H]. cbn in H. lia.
  - intros x y r IH b [k H]. cbn [app host_sum]. rewrite IH; [lia|]. exists (k - 1)%nat. cbn [length] in H. lia.
Qed.

Lemma host_bound : forall b, bytes_ok b -> zlen b < 131072 -> 0 <= host_sum b < 2 ^ 32 - 65535.
Proof. intros b Hb Hl. destruct (host_words b Hb) as [k H]. change (2 ^ 32) with 4294967296. lia. Qed.

Lemma chksum_loop_sum : forall b s, bytes_ok b -> 0 <= s -> s + host_sum b < 2 ^ 32 -> chksum_loop s b = s + host_sum b.
Proof.
  apply (list_ind2 (fun b => forall s, bytes_ok b -> 0 <= s -> s + host_sum b < 2 ^ 32 -> chksum_loop s b = s + host_sum b)); cbn [chksum_loop host_sum].
  - intros; lia.
  - intros x s H Hs Hb. apply Forall_inv in H. unfold byte_ok in H. unfold u32. change (2 ^ 32) with 4294967296 in *. rewrite Z.mod_small; lia.
  - intros x y r IH s H Hs Hb. pose proof (Forall_inv H) as H1. apply Forall_inv_tail in H. pose proof (Forall_inv H) as H2. apply Forall_inv_tail in H.
    unfold byte_ok in *. destruct (host_words r H) as [k Hk]. unfold u32. change (2 ^ 32) with 4294967296 in *. rewrite Z.mod_small by lia. rewrite IH; auto; lia.
Qed.

Lemma land_lnot16 : forall x, Z.land (Z.lnot x) 65535 = 65535 - x mod 65536.
Proof.
  intros x. change 65535 with (Z.ones 16) at 1. rewrite Z.land_ones by lia. change (2 ^ 16) with 65536. unfold Z.lnot. lia.
Qed.

(** The value computed for the sum [h] of the host order words. *)
Definition fold_once (h : Z) : Z := 65535 - (h / 65536 + h mod 65536) mod 65536.

Lemma inet_chksum_val : forall s b, bytes_ok b -> 0 <= s -> s + host_sum b < 2 ^ 32 ->
  inet_chksum s b = htons (fold_once (s + host_sum b)).
Proof.
  intros s b Hb Hs Hl. unfold inet_chksum, fold_once. rewrite chksum_loop_sum by auto. rewrite land_lnot16.
  rewrite Z.shiftr_div_pow2 by lia.
  assert (E : Z.land (s + host_sum b) 65535 = (s + host_sum b) mod 65536) by (change 65535 with (Z.ones 16); rewrite Z.land_ones by lia; reflexivity).
  rewrite E. reflexivity.
Qed.

Lemma fold_once_range : forall h, 0 <= fold_once h <= 65535.
Proof. intros h. unfold fold_once. lia. Qed.

Lemma htons_range : forall t, 0 <= t <= 65535 -> 0 <= htons t <= 65535.
Proof. intros t H. unfold htons. lia. Qed.

Lemma fold_once_ok : forall h, 0 <= h < 2 ^ 32 - 65535 ->
  (exists k, h + fold_once h = 65535 * k) /\ 0 < h + fold_once h <-> h / 65536 + h mod 65536 < 65536.
Proof.
  intros h Hh. change (2 ^ 32) with 4294967296 in Hh. unfold fold_once.
  assert (Hd : h = 65536 * (h / 65536) + h mod 65536) by lia. set (a := h / 65536) in *. set (c := h mod 65536) in *.
  assert (0 <= a < 65536) by lia. assert (0 <= c < 65536) by lia.
  destruct (Z.ltb_spec (a + c) 65536) as [Hl|Hl].
  - rewrite Z.mod_small by lia. split; [intros _; auto|]. intros _. split; [exists (a + 1); lia|lia].
  - assert (Em : (a + c) mod 65536 = a + c - 65536) by lia. rewrite Em. split; [|lia]. intros [[k Hk] _]. exfalso. lia.
Qed.

Lemma bytes_two : forall c, 0 <= c <= 65535 -> bytes_ok (two_bytes c).
Proof. intros c H. unfold two_bytes. constructor; [unfold byte_ok; lia|]. constructor; [unfold byte_ok; lia|constructor]. Qed.

Lemma checksum_once : forall b, bytes_ok b -> zlen b < 131072 -> two_bytes (inet_chksum 0 b) = once b.
Proof.
  intros b Hb Hl. pose proof (host_bound b Hb Hl) as HB. change (2 ^ 32) with 4294967296 in HB. rewrite inet_chksum_val by (auto; change (2 ^ 32) with 4294967296; lia). rewrite Z.add_0_l.
  pose proof (fold_once_range (host_sum b)) as Hf. unfold once, two_bytes. fold (fold_once (host_sum b)). set (t := fold_once (host_sum b)) in *. clearbody t.
  unfold htons. f_equal; [lia|]. f_equal. lia.
Qed.

Lemma checksum_verifies : forall pre post, Nat.Even (length pre) -> bytes_ok pre -> bytes_ok post ->
  zlen (pre ++ [0; 0] ++ post) < 131072 ->
  let data := pre ++ [0; 0] ++ post in
  0 <= inet_chksum 0 data <= 65535 /\
  (verifies (pre ++ two_bytes (inet_chksum 0 data) ++ post) <-> no_second_carry data).
Proof.
  intros pre post He H1 H2 Hl data.
  assert (Hd : bytes_ok data).
  { unfold data. rewrite !bytes_ok_app. split; [auto|split; [|auto]]. repeat (constructor; [unfold byte_ok; lia|]). constructor. }
  pose proof (host_bound data Hd Hl) as Hb. rewrite inet_chksum_val by (auto; lia). rewrite Z.add_0_l.
  pose proof (fold_once_range (host_sum data)) as Hf. set (t := fold_once (host_sum data)) in *.
  pose proof (htons_range t Hf) as Hc. split; [exact Hc|].
  assert (HB : bytes_ok (pre ++ two_bytes (htons t) ++ post)) by (rewrite !bytes_ok_app; split; [auto|split; [apply bytes_two; auto|auto]]).
  rewrite verifies_iff by auto.
  assert (HS : host_sum (pre ++ two_bytes (htons t) ++ post) = host_sum data + t).
  { unfold data. rewrite !(host_sum_app pre) by auto. unfold two_bytes. cbn [app host_sum]. unfold htons.
    assert ((t mod 256 * 256 + t / 256) / 256 = t mod 256) by lia. assert ((t mod 256 * 256 + t / 256) mod 256 = t / 256) by lia. lia. }
  rewrite HS. unfold t. apply fold_once_ok. lia.
Qed.

Lemma checksum_both : forall pre post, Nat.Even (length pre) -> bytes_ok pre -> bytes_ok post ->
  zlen (pre ++ [0; 0] ++ post) < 131072 ->
  let data := pre ++ [0; 0] ++ post in
  two_bytes (inet_chksum 0 data) = once data /\ 0 <= inet_chksum 0 data <= 65535 /\
  (verifies (pre ++ two_bytes (inet_chksum 0 data) ++ post) <-> no_second_carry data).
Proof.
  intros pre post He H1 H2 Hl data. split; [|apply checksum_verifies; auto]. apply checksum_once; auto. unfold data. rewrite !bytes_ok_app.
  split; [auto|]. split; [|auto]. repeat (constructor; [unfold byte_ok; lia|]). constructor.
Qed.

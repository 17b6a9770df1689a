(** Facts about buffers, numbers and outcomes used by all proofs. *)

From Verif Require Export Exec.
From Coq Require Export ZifyBool ZifyNat Permutation.
Ltac Zify.zify_post_hook ::= Z.div_mod_to_equations.

(** ** Outcomes *)

Lemma bind_ret : forall A B (x : out A) (f : A -> out B) b,
  bind x f = Ret b -> exists a, x = Ret a /\ f a = Ret b.
Proof. intros A B [a|c] f b H; cbn in H; [eauto|discriminate]. Qed.

Lemma bind_crash : forall A B (x : out A) (f : A -> out B) c,
  bind x f = Crash c -> x = Crash c \/ exists a, x = Ret a /\ f a = Crash c.
Proof. intros A B [a|c'] f c H; cbn in H; [eauto|left; congruence]. Qed.

Lemma some_inj : forall A (a b : A), Some a = Some b -> a = b.
Proof. intros. congruence. Qed.

Lemma ret_inj : forall A (a b : A), Ret a = Ret b -> a = b.
Proof. intros. congruence. Qed.

Lemma pair_inj : forall A B (a c : A) (b d : B), (a, b) = (c, d) -> a = c /\ b = d.
Proof. intros. split; congruence. Qed.

(** Decompose a hypothesis [_ = Ret _] built from binds. *)
Ltac binv H :=
  let a := fresh "a" in let E := fresh "E" in
  apply bind_ret in H; destruct H as [a [E H]].

(** ** Lists *)

Lemma zlen_nonneg : forall A (l : list A), 0 <= zlen l.
Proof. intros; unfold zlen; lia. Qed.

Lemma zlen_app : forall A (a b : list A), zlen (a ++ b) = zlen a + zlen b.
Proof. intros; unfold zlen; rewrite app_length; lia. Qed.

Lemma zlen_cons : forall A (x : A) l, zlen (x :: l) = 1 + zlen l.
Proof. intros; unfold zlen; cbn [length]; lia. Qed.

Lemma zlen_repeat : forall A (x : A) n, zlen (repeat x n) = Z.of_nat n.
Proof. intros; unfold zlen; rewrite repeat_length; lia. Qed.

Lemma zlen_nil : forall A, zlen (@nil A) = 0.
Proof. reflexivity. Qed.

Lemma upd_length : forall A (l : list A) n v, length (upd l n v) = length l.
Proof. induction l; destruct n; cbn; intros; auto. Qed.

Lemma zlen_upd : forall A (l : list A) n v, zlen (upd l n v) = zlen l.
Proof. intros; unfold zlen; rewrite upd_length; auto. Qed.

Lemma nth_upd : forall A (l : list A) n v k d,
  nth k (upd l n v) d = if (k =? n)%nat && (n <? length l)%nat then v else nth k l d.
Proof.
  induction l as [|x l IH]; intros [|n] v [|k] d; cbn [upd nth length]; auto.
  - rewrite andb_false_r. auto.
  - rewrite IH. cbn [Nat.eqb]. 
    replace (S n <? S (length l))%nat with (n <? length l)%nat; auto.
Qed.

Lemma nth_error_upd : forall A (l : list A) n v k,
  nth_error (upd l n v) k = if (k =? n)%nat then (if (n <? length l)%nat then Some v else None)
                            else nth_error l k.
Proof.
  induction l as [|x l IH]; intros [|n] v [|k]; cbn [upd nth_error length Nat.eqb]; auto.
  - destruct (k =? n)%nat; auto.
  - rewrite IH. replace (S n <? S (length l))%nat with (n <? length l)%nat; auto.
Qed.

Lemma upd_app_l : forall A (a b : list A) n v,
  (n < length a)%nat -> upd (a ++ b) n v = upd a n v ++ b.
Proof.
  induction a as [|x a IH]; intros b [|n] v H; cbn in *; try lia; auto.
  rewrite IH by lia. auto.
Qed.

Lemma upd_app_r : forall A (a b : list A) n v,
  (length a <= n)%nat -> upd (a ++ b) n v = a ++ upd b (n - length a) v.
Proof.
  induction a as [|x a IH]; intros b n v H; cbn [length app] in *.
  - rewrite Nat.sub_0_r. auto.
  - destruct n as [|n]; [lia|]. cbn [upd]. rewrite IH by lia. auto.
Qed.

Lemma upd_mid : forall A (a b : list A) x v, upd (a ++ x :: b) (length a) v = a ++ v :: b.
Proof. intros. rewrite upd_app_r by lia. rewrite Nat.sub_diag. auto. Qed.

Lemma upd_same : forall A (l : list A) n v, nth_error l n = Some v -> upd l n v = l.
Proof.
  induction l as [|x l IH]; intros [|n] v H; cbn in *; try discriminate.
  - congruence.
  - f_equal. auto.
Qed.

Lemma upd_Forall : forall A (P : A -> Prop) l n v, Forall P l -> P v -> Forall P (upd l n v).
Proof.
  induction l as [|x l IH]; intros [|n] v H Hv; cbn; auto;
    inversion H; subst; constructor; auto.
Qed.

Lemma skipn_upd_lt : forall A (l : list A) n k v,
  (n < k)%nat -> skipn k (upd l n v) = skipn k l.
Proof.
  induction l as [|x l IH]; intros n k v H; destruct k; try lia; destruct n; cbn; auto.
  apply IH. lia.
Qed.

Lemma firstn_upd_ge : forall A (l : list A) n k v,
  (k <= n)%nat -> firstn k (upd l n v) = firstn k l.
Proof.
  induction l as [|x l IH]; intros n k v H; destruct k; destruct n; cbn; auto; try lia.
  f_equal. apply IH. lia.
Qed.

Lemma skipn_upd_ge : forall A (l : list A) n k v,
  (k <= n)%nat -> skipn k (upd l n v) = upd (skipn k l) (n - k) v.
Proof.
  induction l as [|x l IH]; intros n k v H.
  - destruct k, n; cbn; auto.
  - destruct k; cbn [skipn].
    + rewrite Nat.sub_0_r. auto.
    + destruct n; [lia|]. cbn [upd skipn Nat.sub]. apply IH. lia.
Qed.

Lemma nth_repeat' : forall A (x : A) n k, nth k (repeat x n) x = x.
Proof. induction n; destruct k; cbn; auto. Qed.

Lemma skipn_nth_cons : forall A (l : list A) n d,
  (n < length l)%nat -> skipn n l = nth n l d :: skipn (S n) l.
Proof.
  induction l as [|x l IH]; intros n d H; cbn in *; [lia|].
  destruct n; cbn; auto. apply IH. lia.
Qed.

Lemma repeat_app' : forall A (x : A) n m, repeat x (n + m) = repeat x n ++ repeat x m.
Proof. intros. apply repeat_app. Qed.

(** ** bget / bput *)

Lemma bget_ok : forall b i, 0 <= i < zlen b -> bget b i = Ret (nth (Z.to_nat i) b 0).
Proof. intros b i H. unfold bget. replace ((0 <=? i) && (i <? zlen b)) with true by lia. auto. Qed.

Lemma bput_ok : forall b i v, 0 <= i < zlen b -> bput b i v = Ret (upd b (Z.to_nat i) v).
Proof. intros b i v H. unfold bput. replace ((0 <=? i) && (i <? zlen b)) with true by lia. auto. Qed.

Lemma bget_inv : forall b i x, bget b i = Ret x -> 0 <= i < zlen b /\ x = nth (Z.to_nat i) b 0.
Proof. intros b i x. unfold bget. destruct ((0 <=? i) && (i <? zlen b)) eqn:E; intros H; inversion H; subst. split; [lia|auto]. Qed.

Lemma bput_inv : forall b i v b', bput b i v = Ret b' -> 0 <= i < zlen b /\ b' = upd b (Z.to_nat i) v.
Proof. intros b i v b'. unfold bput. destruct ((0 <=? i) && (i <? zlen b)) eqn:E; intros H; inversion H; subst. split; [lia|auto]. Qed.

(** ** Bytes *)

Lemma bytes_ok_nth : forall b k, bytes_ok b -> byte_ok (nth k b 0).
Proof.
  intros b k H. destruct (nth_in_or_default k b 0) as [Hin|E].
  - unfold bytes_ok in H. rewrite Forall_forall in H. auto.
  - rewrite E. unfold byte_ok. lia.
Qed.

Lemma bytes_ok_app : forall a b, bytes_ok (a ++ b) <-> bytes_ok a /\ bytes_ok b.
Proof. intros. unfold bytes_ok. apply Forall_app. Qed.

Lemma bytes_ok_repeat : forall x n, byte_ok x -> bytes_ok (repeat x n).
Proof. intros x n H. unfold bytes_ok. apply Forall_forall. intros y Hy. apply repeat_spec in Hy. subst; auto. Qed.

Lemma u8_byte : forall x, byte_ok (u8 x).
Proof. intros. unfold byte_ok, u8. apply Z.mod_pos_bound. lia. Qed.

Lemma zlen_balloc : forall n, 0 <= n -> zlen (balloc n) = n.
Proof. intros. unfold balloc. rewrite zlen_repeat. lia. Qed.

Lemma balloc_bytes : forall n, bytes_ok (balloc n).
Proof. intros. apply bytes_ok_repeat. unfold byte_ok; lia. Qed.

(** ** Big-endian integers *)

Lemma be_val_acc : forall l a,
  fold_left (fun a x => a * 256 + x) l a = a * 256 ^ zlen l + be_val l.
Proof.
  unfold be_val. induction l as [|x l IH]; intros a.
  - cbn. lia.
  - cbn [fold_left]. rewrite (IH (a * 256 + x)), (IH (0 * 256 + x)). rewrite zlen_cons.
    rewrite Z.pow_add_r by (try apply zlen_nonneg; lia). nia.
Qed.

Lemma be_val_cons : forall x l, be_val (x :: l) = x * 256 ^ zlen l + be_val l.
Proof. intros. unfold be_val at 1. cbn [fold_left]. rewrite be_val_acc. lia. Qed.

Lemma be_val_app : forall a b, be_val (a ++ b) = be_val a * 256 ^ zlen b + be_val b.
Proof. intros. unfold be_val at 1. rewrite fold_left_app. apply be_val_acc. Qed.

Lemma be_val_snoc : forall a x, be_val (a ++ [x]) = be_val a * 256 + x.
Proof. intros. rewrite be_val_app. cbn. lia. Qed.

Lemma be_val_nil : be_val [] = 0.
Proof. reflexivity. Qed.

Lemma pow256_pos : forall n, 0 < 256 ^ n \/ n < 0.
Proof. intros. destruct (Z_lt_dec n 0); [auto|left]. apply Z.pow_pos_nonneg; lia. Qed.

Lemma be_val_bound : forall l, bytes_ok l -> 0 <= be_val l < 256 ^ zlen l.
Proof.
  induction l as [|x l IH]; intros H.
  - cbn. lia.
  - inversion H; subst. specialize (IH H3). rewrite be_val_cons, zlen_cons.
    rewrite Z.pow_add_r by (try apply zlen_nonneg; lia).
    unfold byte_ok in H2. nia.
Qed.

Lemma be_val_repeat0 : forall n, be_val (repeat 0 n) = 0.
Proof. induction n; cbn [repeat]; [reflexivity|]. rewrite be_val_cons, IHn. lia. Qed.

Lemma be_bytes_length : forall n v, length (be_bytes n v) = n.
Proof. induction n; intros; cbn [be_bytes]; [reflexivity|]. rewrite app_length, IHn. cbn. lia. Qed.

Lemma be_bytes_ok : forall n v, bytes_ok (be_bytes n v).
Proof.
  induction n; intros; cbn [be_bytes]; [constructor|]. apply bytes_ok_app. split; auto.
  repeat constructor; apply Z.mod_pos_bound; lia.
Qed.

Lemma be_bytes_val : forall n v, be_val (be_bytes n v) = v mod 256 ^ Z.of_nat n.
Proof.
  induction n; intros v; cbn [be_bytes].
  - cbn. rewrite Z.mod_1_r. auto.
  - rewrite be_val_snoc, IHn. rewrite Nat2Z.inj_succ, Z.pow_succ_r by lia.
    rewrite Z.rem_mul_r by (try apply Z.pow_pos_nonneg; try apply Z.pow_nonzero; lia). lia.
Qed.

(** A buffer is determined by its length and value. *)
Lemma be_val_inj : forall a b, bytes_ok a -> bytes_ok b -> length a = length b ->
  be_val a = be_val b -> a = b.
Proof.
  intros a. induction a as [|x a IH] using rev_ind; intros b Ha Hb Hl Hv.
  - destruct b; [auto|discriminate].
  - destruct b as [|y b _] using rev_ind.
    + rewrite app_length in Hl. cbn in Hl. lia.
    + rewrite !be_val_snoc in Hv. rewrite !app_length in Hl. cbn in Hl.
      apply bytes_ok_app in Ha. apply bytes_ok_app in Hb.
      destruct Ha as [Ha Hx], Hb as [Hb Hy]. inversion Hx; inversion Hy; subst.
      unfold byte_ok in *.
      assert (x = y) by lia. subst. f_equal. apply IH; auto; lia.
Qed.

Lemma be_bytes_of_val : forall l, bytes_ok l -> be_bytes (length l) (be_val l) = l.
Proof.
  intros l H. apply be_val_inj; auto.
  - apply be_bytes_ok.
  - apply be_bytes_length.
  - rewrite be_bytes_val. apply Z.mod_small. apply be_val_bound; auto.
Qed.

Lemma skipn_be_bytes : forall n k v, (k <= n)%nat ->
  skipn k (be_bytes n v) = be_bytes (n - k) v.
Proof.
  intros n k v H. apply be_val_inj.
  - apply Forall_forall. intros x Hx. pose proof (be_bytes_ok n v) as Hb.
    unfold bytes_ok in Hb. rewrite Forall_forall in Hb. apply Hb.
    rewrite <- (firstn_skipn k (be_bytes n v)). apply in_or_app; auto.
  - apply be_bytes_ok.
  - rewrite skipn_length, !be_bytes_length. lia.
  - rewrite be_bytes_val.
    pose proof (firstn_skipn k (be_bytes n v)) as E.
    pose proof (be_bytes_val n v) as Hv. rewrite <- E in Hv. rewrite be_val_app in Hv.
    assert (Hlen : zlen (skipn k (be_bytes n v)) = Z.of_nat (n - k)).
    { unfold zlen. rewrite skipn_length, be_bytes_length. lia. }
    rewrite Hlen in Hv.
    assert (Hb : bytes_ok (skipn k (be_bytes n v))).
    { pose proof (be_bytes_ok n v) as Hb. rewrite <- E in Hb. apply bytes_ok_app in Hb. tauto. }
    apply be_val_bound in Hb. rewrite Hlen in Hb.
    assert (Hp : 256 ^ Z.of_nat n = 256 ^ Z.of_nat (n - k) * 256 ^ Z.of_nat k).
    { rewrite <- Z.pow_add_r by lia. f_equal. lia. }
    set (P := 256 ^ Z.of_nat (n - k)) in *.
    assert (HP : 0 < P) by (apply Z.pow_pos_nonneg; lia).
    assert (HQ : 0 < 256 ^ Z.of_nat k) by (apply Z.pow_pos_nonneg; lia).
    assert (Hm : (v mod (P * 256 ^ Z.of_nat k)) mod P = v mod P).
    { rewrite Z.rem_mul_r by lia. rewrite Z.mul_comm, Z.mod_add by lia. apply Z.mod_mod. lia. }
    rewrite <- Hp, <- Hv in Hm. rewrite Z.add_comm, Z.mod_add in Hm by lia.
    rewrite Z.mod_small in Hm by lia. auto.
Qed.

(** ** Characters *)

Lemma code_range : forall c, 0 <= code c < 256.
Proof. intros c. unfold code. pose proof (N_ascii_bounded c). lia. Qed.

Lemma code_chr : forall n, 0 <= n < 256 -> code (chr n) = n.
Proof. intros n H. unfold code, chr. rewrite N_ascii_embedding by lia. lia. Qed.

Lemma code_inj : forall a b, code a = code b -> a = b.
Proof.
  intros a b H. unfold code in H. apply N2Z.inj in H.
  rewrite <- (ascii_N_embedding a), <- (ascii_N_embedding b). congruence.
Qed.

Lemma digit_code_10 : forall d, 0 <= d < 10 -> code (digit_char d) = 48 + d.
Proof. intros. unfold digit_char. replace (d <? 10) with true by lia. apply code_chr. lia. Qed.

Lemma digit_code_16 : forall d, 10 <= d < 16 -> code (digit_char d) = 87 + d.
Proof. intros. unfold digit_char. replace (d <? 10) with false by lia. rewrite code_chr; lia. Qed.

Lemma hexval_digit : forall d, 0 <= d < 16 -> hexval (digit_char d) = Some d.
Proof.
  intros d H. unfold hexval, in_range.
  destruct (Z_lt_dec d 10).
  - rewrite digit_code_10 by lia. replace ((48 <=? 48 + d) && (48 + d <=? 57)) with true by lia.
    f_equal; lia.
  - rewrite digit_code_16 by lia.
    replace ((48 <=? 87 + d) && (87 + d <=? 57)) with false by lia.
    replace ((97 <=? 87 + d) && (87 + d <=? 102)) with true by lia. f_equal; lia.
Qed.

Lemma hexval_range : forall c v, hexval c = Some v -> 0 <= v < 16.
Proof.
  intros c v. unfold hexval, in_range.
  destruct ((48 <=? code c) && (code c <=? 57)) eqn:E1; [intros H; inversion H; lia|].
  destruct ((97 <=? code c) && (code c <=? 102)) eqn:E2; [intros H; inversion H; lia|].
  destruct ((65 <=? code c) && (code c <=? 70)) eqn:E3; intros H; inversion H; lia.
Qed.

Lemma str_existsb_app : forall p a b,
  str_existsb p (a ++ b)%string = str_existsb p a || str_existsb p b.
Proof. induction a; cbn; intros; auto. rewrite IHa. apply orb_assoc. Qed.

Lemma str_app_assoc : forall a b c : string, ((a ++ b) ++ c = a ++ (b ++ c))%string.
Proof. induction a; cbn; intros; auto. rewrite IHa. auto. Qed.

Lemma str_app_nil : forall a : string, (a ++ "" = a)%string.
Proof. induction a; cbn; auto. rewrite IHa. auto. Qed.

Lemma str_bytes_ok : forall s, bytes_ok (str_bytes s).
Proof. induction s; constructor; auto. apply code_range. Qed.

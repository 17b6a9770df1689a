(** Length fields (C25) and the chaining of types (C26). *)

From Verif Require Import PTextIp PTextNum Frame PSer PParse PMatch PFrame PInv PStep PArgs PSoft PFill PGroup PAll PSafe PAssign PImage PSum PEmit SpecFill PCheck PCheck2.

Lemma positional_be : forall k x, positional 256 (be_bytes k x) = x mod 256 ^ Z.of_nat k.
Proof. intros. rewrite positional_be_val. apply be_bytes_val. Qed.

Lemma em_number : forall f f' b k t h h' n off nb fl x, emitting f f' b k t h h' -> value_fill (h_fill t) = true -> varhdr t = false ->
  at_place t n off (8 * Z.of_nat nb) = true -> 0 <= off -> off + 8 * Z.of_nat nb <= 8 * h_size t -> find_field h' n = Some fl ->
  f_val fl = Some (be_bytes nb x) ->
  field_at f' b k off (8 * nb) = x mod 2 ^ (8 * Z.of_nat nb).
Proof.
  intros f f' b k t h h' n off nb fl x E Hv Hx Hp H0 Hin Hf Hd.
  pose proof (em_field _ _ _ _ _ _ _ n off (8 * Z.of_nat nb) fl E Hv Hx Hp H0 ltac:(lia) Hin Hf) as H.
  replace (Z.to_nat (8 * Z.of_nat nb)) with (8 * nb)%nat in H by lia. rewrite H. unfold field_data. rewrite Hd, positional_be.
  rewrite Z.pow_mul_r by lia. change (2 ^ 8) with 256. apply Z.mod_mod. assert (0 < 256 ^ Z.of_nat nb) by (apply Z.pow_pos_nonneg; lia). lia.
Qed.

(** What a filler sets is what is found. *)
Lemma setd_val : forall t h n v, inv t h -> (exists ft, find_field t n = Some ft) -> given h n = false ->
  exists f, find_field (setd n v h) n = Some f /\ f_val f = Some v.
Proof.
  intros t h n v I [ft Hft] Hg. destruct (inv_find _ _ _ _ I Hft) as [f [Hf _]]. exists (set_val (Some v) f). split; [apply setd_find; auto|reflexivity].
Qed.

Lemma at_place_find : forall t n off w, at_place t n off w = true -> exists ft, find_field t n = Some ft.
Proof.
  intros t n off w H. unfold at_place in H. destruct (index_of n (h_fields t)) as [j|] eqn:E; [|discriminate].
  destruct (index_of_find _ _ _ E) as [f [_ [H2 _]]]. exists f. exact H2.
Qed.

Definition len_chk (p : string * (string * Z * Z)) : bool :=
  let '(n, (fld, off, sub)) := p in
  match find_tmpl n with
  | None => false
  | Some t =>
      at_place t fld off 16 && (0 <=? off) && (off + 16 <=? 8 * h_size t) && negb (varhdr t) && value_fill (h_fill t) &&
      match h_fill t with
      | FL_ipv4 | FL_udp_tcp => String.eqb fld "len" && (sub =? 0)
      | FL_ipv6 => String.eqb fld "len" && (sub =? h_size t)
      | FL_ptp => String.eqb fld "hdr-messageLength" && (sub =? 0)
      | FL_ptp_tlv => String.eqb fld "tlv-length" && (sub =? 4) && (4 <=? h_size t)
      | _ => false
      end
  end.

Lemma lens_checked : forallb len_chk length_fields = true.
Proof. vm_compute. reflexivity. Qed.

(** C25 *)
Lemma lengths : forall ws f f' b k n fld off sub, serialised ws f f' b -> named f k n -> In (n, (fld, off, sub)) length_fields ->
  user_gave f k fld = false -> field_at f' b k off 16 = (bytes_from f' k - sub) mod 65536.
Proof.
  intros ws f f' b k n fld off sub HS HN Hin HG. pose proof lens_checked as HC. rewrite forallb_forall in HC. specialize (HC _ Hin). cbn [len_chk] in HC.
  destruct (find_tmpl n) as [t|] eqn:Et; [|discriminate]. rewrite !andb_true_iff in HC. destruct HC as [[[[[C1 C2] C3] C4] C5] C6]. apply negb_true_iff in C4.
  destruct (named_emitting _ _ _ _ _ _ t HS HN Et) as [h [h' [E [Hn Hk]]]]. rewrite (gave _ _ _ _ Hk) in HG. clear Hin.
  pose proof (at_place_find _ _ _ _ C1) as Hex.
  destruct (emitting_tail _ _ _ _ _ _ _ E) as [WHB [WB [Wh Wh']]].
  pose proof (e_run _ _ _ _ _ _ _ E) as HR. pose proof (e_types _ _ _ _ _ _ _ E) as HT. pose proof (e_tmpl _ _ _ _ _ _ _ E) as Ht. pose proof (e_inv _ _ _ _ _ _ _ E) as I.
  destruct (inv_layout _ _ I C4) as [_ [_ L3]]. destruct (em_layout _ _ _ _ _ _ _ E C5 C4) as [_ [_ L4]].
  assert (K : exists fl, find_field h' fld = Some fl /\ f_val fl = Some (be_bytes 2 (stack_size (h :: skipn (S k) (fr_stack f')) - sub))).
  { set (B := skipn (S k) (fr_stack f')) in *. set (A := firstn k (fr_stack f)) in *.
    destruct (h_fill t) eqn:Ef; try discriminate C6; cbn [run_fill] in HR; apply andb_true_iff in C6; destruct C6 as [C6 C7].
    - apply String.eqb_eq in C6. subst fld. destruct (ipv4_eff _ _ _ _ _ Ht Ef I WB HT HR) as [-> _].
      replace sub with 0 by lia. rewrite Z.sub_0_r. rewrite setd_other by discriminate. unfold ipv4_len. apply (setd_val t); auto.
      + apply (setd_be t h "proto" 8 1); auto; try lia. rewrite Ef. left; auto.
      + rewrite setd_given by discriminate. auto.
    - apply String.eqb_eq in C6. subst fld. rewrite (ipv6_eff _ _ _ _ _ Ht Ef I WB HT HR).
      rewrite stack_size_cons, L3. replace (h_size t + stack_size B - sub) with (stack_size B) by lia. apply (setd_val t); auto.
      + apply (setd_be t h "next" 8 1); auto; try lia. rewrite Ef. left; auto.
      + rewrite setd_given by discriminate. auto.
    - apply String.eqb_eq in C6. subst fld. replace sub with 0 by lia. rewrite Z.sub_0_r.
      assert (K : exists fl, find_field (udp_len h B) "len" = Some fl /\ f_val fl = Some (be_bytes 2 (stack_size (h :: B)))) by (apply (setd_val t); auto).
      destruct (udp_eff _ _ _ _ WHB HR) as [[-> _]|[_ [A' [ll [tt [ph [bb [_ [_ [_ [_ ->]]]]]]]]]]]; [auto|]. rewrite setd_other by discriminate. auto.
    - apply String.eqb_eq in C6. subst fld. replace sub with 0 by lia. apply ptp_eff in HR; [|auto|destruct Wh; lia]. subst h'. apply (setd_val t); auto.
    - apply andb_true_iff in C6. destruct C6 as [C6 C8]. apply String.eqb_eq in C6. subst fld. replace sub with 4 by lia.
      apply ptp_eff in HR; [|auto|lia]. subst h'. apply (setd_val t); auto. }
  destruct K as [fl [K1 K2]]. rewrite (em_size _ _ _ _ _ _ _ E). rewrite stack_size_cons in *. rewrite L4, <- L3.
  exact (em_number _ _ _ _ _ _ _ fld off 2 fl _ E C5 C4 C1 ltac:(lia) ltac:(lia) K1 K2).
Qed.

(** *** Chaining *)
Lemma types_checked : forallb (fun t => h_type t =? type_number (h_name t)) hdr_tmpls = true.
Proof. vm_compute. reflexivity. Qed.

Definition typ_chk (p : string * (string * Z * Z * Z)) : bool :=
  let '(n, (fld, off, w, d)) := p in
  match find_tmpl n with
  | None => false
  | Some t =>
      at_place t fld off w && (0 <=? off) && (off + w <=? 8 * h_size t) && negb (varhdr t) && value_fill (h_fill t) &&
      match h_fill t with
      | FL_ether => String.eqb fld "et" && (w =? 16) &&
                    match find_field t fld with
                    | Some ft => match f_def ft with Some v => positional 256 v =? d | None => d =? 0 end
                    | None => false
                    end && (0 <=? d) && (d <? 65536)
      | FL_ipv4 => String.eqb fld "proto" && (w =? 8) && (d =? 17) && negb (String.eqb n "ipv6")
      | FL_ipv6 => String.eqb fld "next" && (w =? 8) && (d =? 17) && String.eqb n "ipv6"
      | _ => false
      end
  end.

Lemma typs_checked : forallb typ_chk type_fields = true.
Proof. vm_compute. reflexivity. Qed.

Definition next_said (f : frame) (k : nat) (this : string) (d : Z) : Z :=
  match nth_error (fr_stack f) (S k) with Some nx => announced f k this (h_name nx) | None => d end.

Lemma icmp_only : forallb (fun t => match h_fill t with FL_icmp => String.eqb (h_name t) "icmp" | _ => negb (String.eqb (h_name t) "icmp") end) hdr_tmpls = true.
Proof. vm_compute. reflexivity. Qed.

(** The type number the filler finds in the header that follows. *)
Lemma next_number : forall ws f f' b k t h h' d, serialised ws f f' b -> emitting f f' b k t h h' ->
  next_type (skipn (S k) (fr_stack f')) d = next_said f k (h_name h) d.
Proof.
  intros ws f f' b k t h h' d HS E. unfold next_said. destruct (nth_error (fr_stack f) (S k)) as [nx|] eqn:En.
  - destruct (serialised_emitting _ _ _ _ _ _ HS En) as [t2 [nx' E2]]. rewrite (em_tail _ _ _ _ _ _ _ E2). cbn [next_type].
    destruct (emitting_tail _ _ _ _ _ _ _ E2) as [W2 _]. pose proof (e_run _ _ _ _ _ _ _ E2) as HR.
    pose proof (e_tmpl _ _ _ _ _ _ _ E2) as Ht. pose proof (e_inv _ _ _ _ _ _ _ E2) as I.
    pose proof icmp_only as HC. rewrite forallb_forall in HC. specialize (HC _ Ht).
    pose proof types_checked as HT. rewrite forallb_forall in HT. specialize (HT _ Ht).
    assert (Hty : h_type nx = type_number (h_name nx)) by (rewrite (i_type _ _ I), (i_name _ _ I); lia). clear HT.
    unfold announced. rewrite (gave _ _ _ _ En).
    rewrite (firstn_S_snoc _ _ _ _ (e_src _ _ _ _ _ _ _ E)) in HR.
    destruct (h_fill t2) eqn:Ef.
    5:{ apply String.eqb_eq in HC. rewrite (i_name _ _ I), HC. change (String.eqb "icmp" "icmp") with true. rewrite andb_true_r.
        cbn [run_fill] in HR. apply icmp_eff in HR; [|auto]. destruct HR as [[-> Hg]|[Hg [[A' [ll [ph [bb [E3 [E4 [_ [_ ->]]]]]]]]|[bb [E3 [_ ->]]]]]].
        - rewrite Hg. rewrite andb_false_r. rewrite Hty, (i_name _ _ I), HC. reflexivity.
        - rewrite Hg. apply app_inj_tail in E3. destruct E3 as [_ <-]. rewrite E4. reflexivity.
        - specialize (E3 _ _ eq_refl). rewrite setd_type. destruct (String.eqb_spec (h_name h) "ipv6"); [congruence|]. cbn [andb]. rewrite Hty, (i_name _ _ I), HC. reflexivity. }
    all: apply negb_true_iff in HC; rewrite <- (i_name _ _ I) in HC; rewrite HC, andb_false_r; cbn [andb]; rewrite <- Hty; rewrite <- Ef in HR;
      eapply fill_type in HR; eauto; [|apply E2]; destruct HR as [->|[E3 _]]; [reflexivity|congruence].
  - apply nth_error_None in En. rewrite skipn_all2; [reflexivity|]. rewrite (e_len _ _ _ _ _ _ _ E). auto.
Qed.

(** C26 *)
Lemma chaining : forall ws f f' b k n fld off w d, serialised ws f f' b -> named f k n -> In (n, (fld, off, w, d)) type_fields ->
  user_gave f k fld = false -> field_at f' b k off (Z.to_nat w) = next_said f k n d mod 2 ^ w.
Proof.
  intros ws f f' b k n fld off w d HS HN Hin HG. pose proof typs_checked as HC. rewrite forallb_forall in HC. specialize (HC _ Hin). cbn [typ_chk] in HC.
  destruct (find_tmpl n) as [t|] eqn:Et; [|discriminate]. rewrite !andb_true_iff in HC. destruct HC as [[[[[C1 C2] C3] C4] C5] C6]. apply negb_true_iff in C4.
  destruct (named_emitting _ _ _ _ _ _ t HS HN Et) as [h [h' [E [Hn Hk]]]]. rewrite (gave _ _ _ _ Hk) in HG. clear Hin.
  pose proof (at_place_find _ _ _ _ C1) as Hex.
  destruct (emitting_tail _ _ _ _ _ _ _ E) as [WHB [WB [Wh Wh']]].
  pose proof (e_run _ _ _ _ _ _ _ E) as HR. pose proof (e_types _ _ _ _ _ _ _ E) as HT. pose proof (e_tmpl _ _ _ _ _ _ _ E) as Ht. pose proof (e_inv _ _ _ _ _ _ _ E) as I.
  pose proof (next_number _ _ _ _ _ _ _ _ d HS E) as HX. rewrite Hn in HX. rewrite <- HX.
  set (B := skipn (S k) (fr_stack f')) in *. set (A := firstn k (fr_stack f)) in *.
  destruct (h_fill t) eqn:Ef; try discriminate C6; cbn [run_fill] in HR.
  - rewrite !andb_true_iff in C6. destruct C6 as [[[[C6 C7] C8] C9] C10]. apply String.eqb_eq in C6. subst fld. assert (w = 16) by lia. subst w.
    apply ether_eff in HR; [|auto]. destruct B as [|nx B'] eqn:EB.
    + subst h'. cbn [next_type]. destruct Hex as [ft Hft]. rewrite Hft in C8. destruct (inv_find _ _ _ _ I Hft) as [fl [Hfl _]].
      rewrite <- Ef in C5. rewrite (em_field _ _ _ _ _ _ _ "et" off 16 fl E C5 C4 C1 ltac:(lia) ltac:(lia) ltac:(lia) Hfl).
      pose proof (inv_def _ _ _ _ I Hfl) as Hd. rewrite Hft in Hd. unfold field_data. unfold given in HG. rewrite Hfl in HG. destruct (f_val fl); [discriminate|].
      rewrite Hd. destruct (f_def ft); [|replace d with 0 by lia; reflexivity]. replace (positional 256 b0) with d by lia. reflexivity.
    + destruct (setd_val t h "et" (be_bytes 2 (next_type (nx :: B') 0)) I Hex HG) as [fl [F1 F2]]. rewrite <- HR in F1.
      rewrite <- Ef in C5. exact (em_number _ _ _ _ _ _ _ "et" off 2 fl _ E C5 C4 C1 ltac:(lia) ltac:(lia) F1 F2).
  - rewrite !andb_true_iff in C6. destruct C6 as [[[C6 C7] C8] C9]. apply String.eqb_eq in C6. subst fld. assert (w = 8) by lia. subst w. assert (d = 17) by lia. subst d.
    destruct (ipv4_eff _ _ _ _ _ Ht Ef I WB HT HR) as [HE _].
    destruct (setd_val t h "proto" (be_bytes 1 (next_type B 17)) I Hex HG) as [fl [F1 F2]].
    assert (F3 : find_field h' "proto" = Some fl) by (rewrite HE; unfold ipv4_len; rewrite !setd_other by discriminate; exact F1).
    rewrite <- Ef in C5. exact (em_number _ _ _ _ _ _ _ "proto" off 1 fl _ E C5 C4 C1 ltac:(lia) ltac:(lia) F3 F2).
  - rewrite !andb_true_iff in C6. destruct C6 as [[[C6 C7] C8] C9]. apply String.eqb_eq in C6. subst fld. assert (w = 8) by lia. subst w. assert (d = 17) by lia. subst d.
    pose proof (ipv6_eff _ _ _ _ _ Ht Ef I WB HT HR) as HE.
    destruct (setd_val t h "next" (be_bytes 1 (next_type B 17)) I Hex HG) as [fl [F1 F2]].
    assert (F3 : find_field h' "next" = Some fl) by (rewrite HE; rewrite !setd_other by discriminate; exact F1).
    rewrite <- Ef in C5. exact (em_number _ _ _ _ _ _ _ "next" off 1 fl _ E C5 C4 C1 ltac:(lia) ltac:(lia) F3 F2).
Qed.

Lemma chaining_next : forall ws f f' b k n m fld off w d, serialised ws f f' b -> named f k n -> named f (S k) m ->
  In (n, (fld, off, w, d)) type_fields -> user_gave f k fld = false ->
  field_at f' b k off (Z.to_nat w) = announced f k n m mod 2 ^ w.
Proof.
  intros ws f f' b k n m fld off w d HS HN [nx [Hx Hm]] Hin HG. rewrite (chaining _ _ _ _ _ _ _ _ _ _ HS HN Hin HG). unfold next_said. rewrite Hx, Hm. reflexivity.
Qed.

Lemma chaining_last : forall ws f f' b k n fld off w d, serialised ws f f' b -> named f k n -> length (fr_stack f) = S k ->
  In (n, (fld, off, w, d)) type_fields -> user_gave f k fld = false ->
  field_at f' b k off (Z.to_nat w) = d.
Proof.
  intros ws f f' b k n fld off w d HS HN HL Hin HG. rewrite (chaining _ _ _ _ _ _ _ _ _ _ HS HN Hin HG). unfold next_said.
  replace (nth_error (fr_stack f) (S k)) with (@None hdr) by (symmetry; apply nth_error_None; lia).
  cbn [In type_fields] in Hin. repeat (destruct Hin as [Hin|Hin]; [repeat (apply pair_inj in Hin; destruct Hin as [Hin ?] || idtac)|]); try destruct Hin.
  all: repeat match goal with H : (_, _) = (_, _) |- _ => apply pair_inj in H; destruct H end; subst; reflexivity.
Qed.

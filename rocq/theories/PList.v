(** Lists of buffers: proofs of C79 and C80. *)

From Verif Require Import BaseFacts SpecList.
Local Open Scope Z_scope.

Lemma nth_error_here : forall (H : heap) a x y, nth_error H a = Some x -> nth_error (upd H a y) a = Some y.
Proof. intros H a x y E. assert (a < length H)%nat by (apply nth_error_Some; congruence). rewrite nth_error_upd, Nat.eqb_refl. replace (a <? length H)%nat with true by lia. auto. Qed.

Lemma nth_error_else : forall (H : heap) a b y, b <> a -> nth_error (upd H a y) b = nth_error H b.
Proof. intros. rewrite nth_error_upd. replace (b =? a)%nat with false by lia. auto. Qed.

Lemma nth_error_new : forall (H : heap) x, nth_error (H ++ [x]) (length H) = Some x.
Proof. intros. rewrite nth_error_app2 by lia. rewrite Nat.sub_diag. auto. Qed.

Lemma nth_error_old : forall (H : heap) x a y, nth_error H a = Some y -> nth_error (H ++ [x]) a = Some y.
Proof. intros. rewrite nth_error_app1; auto. apply nth_error_Some. congruence. Qed.

Lemma upd_new : forall (H : heap) x y, upd (H ++ [x]) (length H) y = H ++ [y].
Proof. intros. rewrite upd_mid. auto. Qed.

Lemma chain_same : forall H H' p c, chain H p c -> (forall a, In a (map fst c) -> nth_error H' a = nth_error H a) -> chain H' p c.
Proof.
  induction 1 as [|a n d c E HC IH]; intros HS; [constructor|]. econstructor.
  - rewrite HS by (left; auto). exact E.
  - apply IH. intros b Hb. apply HS. right. auto.
Qed.

Lemma chain_used : forall H p c a, chain H p c -> In a (map fst c) -> exists e, nth_error H a = Some (Used (Element e)).
Proof. induction 1 as [|b n d c E HC IH]; intros HI; [contradiction|]. destruct HI as [<-|HI]; eauto. Qed.

Lemma chain_lt : forall H p c a, chain H p c -> In a (map fst c) -> (a < length H)%nat.
Proof. intros H p c a HC HI. destruct (chain_used _ _ _ _ HC HI). apply nth_error_Some. congruence. Qed.

Lemma chain_fun : forall H p c, chain H p c -> forall c', chain H p c' -> c = c'.
Proof.
  induction 1 as [|a n d c E HC IH]; intros c' H'; inversion H' as [|a' n' d' c'' E' HC']; subst; auto.
  rewrite E in E'. apply some_inj in E'. injection E' as <- <-. f_equal. auto.
Qed.

Lemma chain_mem : forall H p c a, chain H p c -> In a (map fst c) -> exists u v, c = u ++ v /\ chain H (Some a) v.
Proof.
  induction 1 as [|b n d c E HC IH]; intros HI; [contradiction|]. destruct HI as [<-|HI].
  - exists [], ((b, d) :: c). split; auto. econstructor; eauto.
  - destruct (IH HI) as [u [v [-> HV]]]. exists ((b, d) :: u), v. auto.
Qed.

Lemma chain_nodup : forall H p c, chain H p c -> NoDup (map fst c).
Proof.
  induction 1 as [|a n d c E HC IH]; [constructor|]. cbn [map fst]. constructor; auto. intros HI.
  destruct (chain_mem _ _ _ _ HC HI) as [u [v [-> HV]]].
  assert (K : chain H (Some a) ((a, d) :: u ++ v)) by (econstructor; eauto).
  pose proof (chain_fun _ _ _ K _ HV) as E'. apply (f_equal (@length _)) in E'. cbn [length] in E'. rewrite app_length in E'. lia.
Qed.

Lemma chain_short : forall H p c, chain H p c -> (length c <= length H)%nat.
Proof.
  intros H p c HC. rewrite <- (map_length fst c), <- (seq_length (length H) 0). apply NoDup_incl_length; [apply (chain_nodup _ _ _ HC)|].
  intros a Ha. apply in_seq. pose proof (chain_lt _ _ _ _ HC Ha). lia.
Qed.

(** *** The tail, and what is put behind it *)
Lemma tail_walk : forall c p a d n H, chain H p (c ++ [(a, d)]) -> (length c < n)%nat -> ble_tail_ n p H = Done (Some a) H.
Proof.
  induction c as [|[b e] c IH]; intros p a d n H HC Hn; (destruct n as [|n]; [cbn [length] in Hn; lia|]);
    inversion HC as [|x nx dx cx E HC' EP]; subst; cbn [ble_tail_]; unfold seq, load_elem, load, seq, pure; rewrite E; cbn [e_next].
  - inversion HC'; subst. auto.
  - destruct nx as [y|]; [|inversion HC' as [EE|]; destruct c; discriminate]. eapply IH; eauto. cbn [length] in Hn. lia.
Qed.

Lemma tail_of : forall H p c a d, chain H p (c ++ [(a, d)]) -> ble_tail p H = Done (Some a) H.
Proof. intros H p c a d HC. unfold ble_tail. eapply tail_walk; eauto. pose proof (chain_short _ _ _ HC) as K. rewrite app_length in K. cbn [length] in K. lia. Qed.

Lemma chain_last : forall c p a d H, chain H p (c ++ [(a, d)]) -> nth_error H a = Some (Used (Element (MkElem None d))).
Proof.
  induction c as [|[b e] c IH]; intros p a d H HC; inversion HC as [|x nx dx cx E HC' EP]; subst; eauto. inversion HC'; subst. auto.
Qed.

Lemma append_done : forall H p c a d e, chain H p (c ++ [(a, d)]) ->
  ble_append p e H = Done e (upd H a (Used (Element (MkElem e d)))).
Proof.
  intros H p c a d e HC. pose proof (chain_last _ _ _ _ _ HC) as HL. unfold ble_append, seq. rewrite (tail_of _ _ _ _ _ HC).
  unfold load_elem, load, seq, store, pure. rewrite HL. cbn [e_data]. rewrite HL. reflexivity.
Qed.

Lemma chain_join : forall c p a d e c' H H', chain H p (c ++ [(a, d)]) -> chain H' e c' ->
  nth_error H' a = Some (Used (Element (MkElem e d))) -> (forall b, In b (map fst c) -> nth_error H' b = nth_error H b) -> chain H' p (c ++ (a, d) :: c').
Proof.
  induction c as [|[b x] c IH]; intros p a d e c' H H' HC HE HA HS; inversion HC as [|y nx dx cx E HC' EP]; subst; cbn [app].
  - econstructor; eauto.
  - econstructor; [rewrite HS by (left; auto); exact E|]. eapply IH; eauto. intros z Hz. apply HS. right. auto.
Qed.

(** *** Free *)
Lemma free_walk : forall c p n H, chain H p c -> (length c <= n)%nat ->
  exists H', ble_free_ n p H = Done tt H' /\ length H' = length H /\
    (forall a, In a (map fst c) -> nth_error H' a = Some Freed) /\ (forall a, ~ In a (map fst c) -> nth_error H' a = nth_error H a).
Proof.
  induction c as [|[b e] c IH]; intros p n H HC Hn; inversion HC as [|x nx dx cx E HC' EP]; subst.
  - exists H. destruct n; cbn [ble_free_]; (split; [reflexivity|]; split; [auto|]; split; [contradiction|auto]).
  - destruct n as [|n]; [cbn [length] in Hn; lia|]. cbn [ble_free_]. unfold seq at 1. unfold load_elem, load, seq at 1, pure. rewrite E. cbn [e_next].
    pose proof (chain_nodup _ _ _ HC) as ND. cbn [map fst] in ND. inversion ND as [|? ? ND1 ND2]; subst.
    destruct (IH nx n H HC') as [H' [R [RL [R1 R2]]]]; [cbn [length] in Hn; lia|].
    assert (K : (match nx with Some _ => ble_free_ n nx | None => pure tt end) H = Done tt H').
    { destruct nx; auto. inversion HC'; subst. destruct n; cbn in R; exact R. }
    unfold seq. unfold pure in K. rewrite K. unfold free. assert (EB : nth_error H' b = Some (Used (Element (MkElem nx e)))) by (rewrite R2; auto). rewrite EB.
    eexists. split; [reflexivity|]. split; [rewrite upd_length; auto|]. split.
    + cbn [map fst]. intros a [<-|Ha]; [eapply nth_error_here; eauto|]. rewrite nth_error_else; [auto|]. intros ->. contradiction.
    + cbn [map fst]. intros a Ha. rewrite nth_error_else by (intros ->; apply Ha; left; auto). apply R2. intros K'. apply Ha. right. auto.
Qed.

Lemma free_done : forall H p c, chain H p c -> exists H', ble_free p H = Done tt H' /\ length H' = length H /\
    (forall a, In a (map fst c) -> nth_error H' a = Some Freed) /\ (forall a, ~ In a (map fst c) -> nth_error H' a = nth_error H a).
Proof. intros H p c HC. apply free_walk; auto. eapply chain_short; eauto. Qed.

(** *** Histories *)
Record inv (H : heap) (hs : list (option addr)) (ls : list (option (list buf))) (C : nat -> list (addr * buf)) : Prop := MkInv {
  i_len : length hs = length ls;
  i_chain : forall k, chain H (nth k hs None) (C k);
  i_data : forall k, match nth k ls None with None => C k = [] | Some l => C k <> [] /\ map snd (C k) = l end;
  i_apart : forall k k' a, In a (map fst (C k)) -> In a (map fst (C k')) -> k = k';
  i_only : forall a, used H a -> exists k, In a (map fst (C k)) }.

Definition set (C : nat -> list (addr * buf)) (i : nat) (c : list (addr * buf)) : nat -> list (addr * buf) := fun k => if Nat.eqb k i then c else C k.

Lemma inv_beyond : forall H hs ls C k, inv H hs ls C -> (length hs <= k)%nat -> C k = [].
Proof. intros H hs ls C k HI Hk. pose proof (i_data _ _ _ _ HI k) as K. rewrite nth_overflow in K by (rewrite <- (i_len _ _ _ _ HI); auto). auto. Qed.

Lemma last_of : forall (c : list (addr * buf)), c <> [] -> exists c0 a d, c = c0 ++ [(a, d)].
Proof. intros c Hc. destruct (exists_last Hc) as [c0 [[a d] E]]. eauto. Qed.

Lemma some_head : forall H p c, chain H p c -> c <> [] -> exists a, p = Some a.
Proof. intros H p c HC Hc. inversion HC; subst; [congruence|eauto]. Qed.

Lemma act_inv : forall H hs ls C x ls', inv H hs ls C -> expect ls x = Some ls' -> exists hs' H' C', act hs x H = Done hs' H' /\ inv H' hs' ls' C'.
Proof.
  intros H hs ls C x ls' HI HE. destruct x as [ok d|ok i d|i j|i]; cbn [expect] in HE.
  - (* New *) apply some_inj in HE. subst ls'. destruct ok; cbn [act ble_alloc].
    + set (b0 := Element _). exists (hs ++ [Some (length H)]), (H ++ [Used (Element (MkElem None d))]), (set C (length hs) [(length H, d)]). split.
      * unfold seq, calloc, pure, store. rewrite nth_error_new, upd_new. reflexivity.
      * constructor; [rewrite !app_length; cbn; rewrite (i_len _ _ _ _ HI); auto| | | |].
        -- intros k. unfold set. destruct (Nat.eqb_spec k (length hs)) as [->|Hk].
           ++ rewrite app_nth2, Nat.sub_diag by lia. cbn [nth]. econstructor; [apply nth_error_new|constructor].
           ++ assert (E : nth k (hs ++ [Some (length H)]) None = nth k hs None).
              { destruct (Nat.ltb_spec k (length hs)); [apply app_nth1; auto|]. rewrite !nth_overflow; auto; try lia. rewrite app_length. cbn. lia. }
              rewrite E. eapply chain_same; [apply (i_chain _ _ _ _ HI)|]. intros a Ha. destruct (chain_used _ _ _ _ (i_chain _ _ _ _ HI k) Ha) as [e Ee]. rewrite Ee. apply nth_error_old. auto.
        -- intros k. unfold set. pose proof (i_len _ _ _ _ HI) as L. destruct (Nat.eqb_spec k (length hs)) as [->|Hk].
           ++ rewrite L, app_nth2, Nat.sub_diag by lia. cbn [nth]. split; [discriminate|reflexivity].
           ++ assert (E : nth k (ls ++ [Some [d]]) None = nth k ls None).
              { destruct (Nat.ltb_spec k (length ls)); [apply app_nth1; auto|]. rewrite !nth_overflow; auto; try lia. rewrite app_length. cbn. lia. }
              rewrite E. apply (i_data _ _ _ _ HI).
        -- assert (F : forall k a, In a (map fst (C k)) -> a <> length H) by (intros k a Ha ->; pose proof (chain_lt _ _ _ _ (i_chain _ _ _ _ HI k) Ha); lia).
           intros k k' a. unfold set. destruct (Nat.eqb_spec k (length hs)) as [->|Hk]; destruct (Nat.eqb_spec k' (length hs)) as [->|Hk']; cbn [map fst In]; intros A B; auto.
           ++ destruct A as [<-|[]]. apply F in B. congruence.
           ++ destruct B as [<-|[]]. apply F in A. congruence.
           ++ eapply (i_apart _ _ _ _ HI); eauto.
        -- intros a [b Hb]. destruct (Nat.eqb_spec a (length H)) as [->|Ha].
           ++ exists (length hs). unfold set. rewrite Nat.eqb_refl. left. auto.
           ++ assert (a < length H)%nat. { assert (a < length (H ++ [Used (Element (MkElem None d))]))%nat by (apply nth_error_Some; congruence). rewrite app_length in *. cbn [length] in *. lia. }
              rewrite nth_error_app1 in Hb by auto. destruct (i_only _ _ _ _ HI a (ex_intro _ b Hb)) as [k Hk]. exists k. unfold set.
              destruct (Nat.eqb_spec k (length hs)) as [->|]; auto. rewrite (inv_beyond _ _ _ _ (length hs) HI) in Hk by lia. contradiction.
    + exists (hs ++ [None]), H, C. split; [reflexivity|]. constructor; try apply HI; [rewrite !app_length; cbn; rewrite (i_len _ _ _ _ HI); auto| |].
      * intros k. replace (nth k (hs ++ [None]) None) with (nth k hs None); [apply HI|]. destruct (Nat.ltb_spec k (length hs)); [rewrite app_nth1; auto|]. rewrite app_nth2, nth_overflow by lia. destruct (k - length hs)%nat as [|[|]]; auto.
      * intros k. replace (nth k (ls ++ [None]) None) with (nth k ls None); [apply HI|]. destruct (Nat.ltb_spec k (length ls)); [rewrite app_nth1; auto|]. rewrite app_nth2, nth_overflow by lia. destruct (k - length ls)%nat as [|[|]]; auto.
  - (* Add *) destruct (nth i ls None) as [l|] eqn:El; [|discriminate]. apply some_inj in HE.
    pose proof (i_data _ _ _ _ HI i) as Hd. rewrite El in Hd. destruct Hd as [Hne Hl]. pose proof (i_chain _ _ _ _ HI i) as Hc.
    destruct (some_head _ _ _ Hc Hne) as [h Eh]. assert (Hi : (i < length ls)%nat) by (destruct (Nat.ltb_spec i (length ls)); auto; rewrite nth_overflow in El by auto; discriminate).
    cbn [act balloc]. unfold seq at 1. unfold seq at 1. unfold calloc, pure at 1. unfold seq at 1. unfold store. rewrite nth_error_new, upd_new. cbv iota beta.
    set (q := length H). unfold seq at 1. unfold ble_append_buf. unfold seq at 1. unfold load_buf, load. unfold seq at 1. rewrite nth_error_new. unfold pure at 1. destruct ok; subst ls'.
    + cbn [ble_alloc]. unfold seq at 1. unfold seq at 1. unfold calloc, pure at 1. unfold seq at 1. unfold store.
      assert (EN : nth_error ((H ++ [Used (Buffer d)]) ++ [Used (Element (MkElem None (repeat 0 (length d))))]) (length (H ++ [Used (Buffer d)])) = Some (Used (Element (MkElem None (repeat 0 (length d)))))) by apply nth_error_new.
      rewrite EN, upd_new. clear EN. unfold seq at 1. unfold bfree, free.
      set (n := length (H ++ [Used (Buffer d)])). assert (Hn : n = S q) by (unfold n, q; rewrite app_length; cbn; lia).
      assert (EQ : nth_error ((H ++ [Used (Buffer d)]) ++ [Used (Element (MkElem None d))]) q = Some (Used (Buffer d))) by (apply nth_error_old, nth_error_new).
      rewrite EQ. set (H1 := upd ((H ++ [Used (Buffer d)]) ++ [Used (Element (MkElem None d))]) q Freed).
      assert (H1o : forall a, (a < q)%nat -> nth_error H1 a = nth_error H a).
      { intros a Ha. unfold H1. rewrite nth_error_else by lia. rewrite !nth_error_app1; auto; try (rewrite app_length; cbn); fold q; lia. }
      assert (H1q : nth_error H1 q = Some Freed) by (unfold H1; eapply nth_error_here; eauto).
      assert (H1n : nth_error H1 n = Some (Used (Element (MkElem None d)))) by (unfold H1; rewrite nth_error_else by lia; apply nth_error_new).
      assert (H1l : length H1 = S (S q)) by (unfold H1; rewrite upd_length, !app_length; cbn; fold q; lia).
      assert (CH : forall k, chain H1 (nth k hs None) (C k)).
      { intros k. eapply chain_same; [apply HI|]. intros a Ha. apply H1o. pose proof (chain_lt _ _ _ _ (i_chain _ _ _ _ HI k) Ha). fold q in H0. lia. }
      destruct (last_of (C i) Hne) as [c0 [a [e Ec]]]. pose proof (CH i) as CHi. rewrite Ec in CHi.
      match goal with |- context [ble_append ?u ?v ?w] => assert (AP : ble_append u v w = _) by exact (append_done _ _ _ _ _ (Some n) CHi); rewrite AP; clear AP end. unfold pure. set (H2 := upd H1 a (Used (Element (MkElem (Some n) e)))).
      assert (Aa : (a < q)%nat). { apply (chain_lt H (nth i hs None) (C i)); [exact Hc|]. rewrite Ec, map_app. apply in_or_app. right. left. auto. }
      exists hs, H2, (set C i (C i ++ [(n, d)])). split; [reflexivity|].
      assert (F : forall k x, In x (map fst (C k)) -> (x < q)%nat) by (intros k x Hx; apply (chain_lt _ _ _ _ (i_chain _ _ _ _ HI k) Hx)).
      constructor; [rewrite upd_length; apply HI| | | |].
      * intros k. unfold set. destruct (Nat.eqb_spec k i) as [->|Hk].
        -- rewrite Ec, <- app_assoc. cbn [app]. eapply chain_join; [exact CHi| |eapply nth_error_here; eapply chain_last; exact CHi|].
           ++ econstructor; [unfold H2; rewrite nth_error_else by lia; exact H1n|constructor].
           ++ intros b Hb. unfold H2. apply nth_error_else. intros ->. pose proof (chain_nodup _ _ _ CHi) as ND. rewrite map_app in ND. cbn [map fst] in ND. apply NoDup_remove_2 in ND. rewrite app_nil_r in ND. contradiction.
        -- eapply chain_same; [apply CH|]. intros b Hb. unfold H2. apply nth_error_else. intros ->. apply Hk. apply (i_apart _ _ _ _ HI k i a); auto. rewrite Ec, map_app. apply in_or_app. right. left. auto.
      * intros k. unfold set. rewrite nth_upd. destruct (Nat.eqb_spec k i) as [->|Hk]; cbn [andb].
        -- replace (i <? length ls)%nat with true by lia. split; [intros K; apply app_eq_nil in K; destruct K; discriminate|]. rewrite map_app, Hl. auto.
        -- apply HI.
      * intros k k' x. unfold set. destruct (Nat.eqb_spec k i) as [->|Hk]; destruct (Nat.eqb_spec k' i) as [->|Hk']; auto; intros A B.
        -- rewrite map_app in A. apply in_app_or in A. destruct A as [A|[<-|[]]]; [apply (i_apart _ _ _ _ HI i k' x); auto|]. apply F in B. cbn [fst] in B. lia.
        -- rewrite map_app in B. apply in_app_or in B. destruct B as [B|[<-|[]]]; [apply (i_apart _ _ _ _ HI k i x); auto|]. apply F in A. cbn [fst] in A. lia.
        -- apply (i_apart _ _ _ _ HI k k' x); auto.
      * intros x [b Hb]. unfold H2 in Hb. assert (Hx : (x < S (S q))%nat) by (rewrite <- H1l, <- (upd_length _ H1 a (Used (Element (MkElem (Some n) e)))); apply nth_error_Some; congruence).
        destruct (Nat.eqb_spec x n) as [->|Hxn]; [exists i; unfold set; rewrite Nat.eqb_refl, map_app; apply in_or_app; right; left; auto|].
        assert (K : exists k, In x (map fst (C k))).
        { destruct (Nat.eqb_spec x a) as [->|Hxa]; [exists i; rewrite Ec, map_app; apply in_or_app; right; left; auto|]. rewrite nth_error_else in Hb by auto.
          destruct (Nat.eqb_spec x q) as [->|Hxq]; [congruence|]. apply (i_only _ _ _ _ HI). exists b. rewrite <- H1o; auto. lia. }
        destruct K as [k Hk]. exists k. unfold set. destruct (Nat.eqb_spec k i) as [->|]; auto. rewrite map_app. apply in_or_app. auto.
    + cbn [ble_alloc]. unfold pure at 1. unfold seq at 1. unfold bfree, free, pure, seq. unfold q. rewrite nth_error_new, upd_new.
      exists hs, (H ++ [Freed]), C. split; [reflexivity|]. constructor; try apply HI.
      * intros k. eapply chain_same; [apply HI|]. intros a Ha. destruct (chain_used _ _ _ _ (i_chain _ _ _ _ HI k) Ha) as [e Ee]. rewrite Ee. apply nth_error_old. auto.
      * intros a [b Hb]. apply (i_only _ _ _ _ HI). exists b. destruct (Nat.ltb_spec a (length H)); [rewrite nth_error_app1 in Hb; auto|]. rewrite nth_error_app2 in Hb by auto. destruct (a - length H)%nat as [|[|]]; discriminate.
  - (* Join *) destruct (Nat.eqb_spec i j) as [|Hij]; [discriminate|]. destruct (nth i ls None) as [l|] eqn:El; [|discriminate]. destruct (nth j ls None) as [l'|] eqn:El'; [|discriminate]. apply some_inj in HE. subst ls'.
    pose proof (i_data _ _ _ _ HI i) as Hd. rewrite El in Hd. destruct Hd as [Hne Hl]. pose proof (i_chain _ _ _ _ HI i) as Hc.
    pose proof (i_data _ _ _ _ HI j) as Hd'. rewrite El' in Hd'. destruct Hd' as [Hne' Hl']. pose proof (i_chain _ _ _ _ HI j) as Hc'.
    assert (Hi : (i < length ls)%nat) by (destruct (Nat.ltb_spec i (length ls)); auto; rewrite nth_overflow in El by auto; discriminate).
    assert (Hj : (j < length ls)%nat) by (destruct (Nat.ltb_spec j (length ls)); auto; rewrite nth_overflow in El' by auto; discriminate).
    destruct (last_of (C i) Hne) as [c0 [a [e Ec]]]. pose proof Hc as CHi. rewrite Ec in CHi. cbn [act]. unfold seq. rewrite (append_done _ _ _ _ _ (nth j hs None) CHi). unfold pure.
    set (H2 := upd H a (Used (Element (MkElem (nth j hs None) e)))).
    assert (Ia : In a (map fst (C i))) by (rewrite Ec, map_app; apply in_or_app; right; left; auto).
    assert (CH : forall k, k <> i -> chain H2 (nth k hs None) (C k)).
    { intros k Hk. eapply chain_same; [apply HI|]. intros b Hb. apply nth_error_else. intros ->. apply Hk. apply (i_apart _ _ _ _ HI k i a); auto. }
    exists (upd hs j None), H2, (set (set C i (C i ++ C j)) j []). split; [reflexivity|]. constructor; [rewrite !upd_length; apply HI| | | |].
    + intros k. unfold set. rewrite nth_upd, (i_len _ _ _ _ HI). destruct (Nat.eqb_spec k j) as [->|Hk]; cbn [andb]; [replace (j <? length ls)%nat with true by lia; constructor|].
      destruct (Nat.eqb_spec k i) as [->|Hk']; [|apply CH; auto].
      rewrite Ec, <- app_assoc. cbn [app]. eapply chain_join; [exact CHi|apply CH; auto|eapply nth_error_here; eapply chain_last; exact CHi|].
      intros b Hb. apply nth_error_else. intros ->. pose proof (chain_nodup _ _ _ CHi) as ND. rewrite map_app in ND. cbn [map fst] in ND. apply NoDup_remove_2 in ND. rewrite app_nil_r in ND. contradiction.
    + intros k. unfold set. rewrite !nth_upd, upd_length. destruct (Nat.eqb_spec k j) as [->|Hk]; cbn [andb]; [replace (j <? length ls)%nat with true by lia; auto|].
      destruct (Nat.eqb_spec k i) as [->|Hk']; cbn [andb]; [|apply HI]. replace (i <? length ls)%nat with true by lia.
      split; [intros K; apply app_eq_nil in K; tauto|]. rewrite map_app, Hl, Hl'. auto.
    + intros k k' x. unfold set. destruct (Nat.eqb_spec k j) as [->|Hk]; [contradiction|]. destruct (Nat.eqb_spec k' j) as [->|Hk']; [contradiction|].
      destruct (Nat.eqb_spec k i) as [->|Hki]; destruct (Nat.eqb_spec k' i) as [->|Hki']; auto; intros A B.
      * rewrite map_app in A. apply in_app_or in A. destruct A as [A|A]; [apply (i_apart _ _ _ _ HI i k' x); auto|]. exfalso. apply Hk'. apply (i_apart _ _ _ _ HI k' j x); auto.
      * rewrite map_app in B. apply in_app_or in B. destruct B as [B|B]; [apply (i_apart _ _ _ _ HI k i x); auto|]. exfalso. apply Hk. apply (i_apart _ _ _ _ HI k j x); auto.
      * apply (i_apart _ _ _ _ HI k k' x); auto.
    + intros x [b Hb]. assert (K : exists k, In x (map fst (C k))).
      { unfold H2 in Hb. destruct (Nat.eqb_spec x a) as [->|Hxa]; [eauto|]. rewrite nth_error_else in Hb by auto. apply (i_only _ _ _ _ HI). exists b. auto. }
      destruct K as [k Hk]. destruct (Nat.eqb_spec k j) as [->|Hkj].
      * exists i. unfold set. replace (i =? j)%nat with false by lia. rewrite Nat.eqb_refl, map_app. apply in_or_app. auto.
      * exists k. unfold set. replace (k =? j)%nat with false by lia. destruct (Nat.eqb_spec k i) as [->|]; auto. rewrite map_app. apply in_or_app. auto.
  - (* Drop *) apply some_inj in HE. subst ls'. destruct (free_done _ _ _ (i_chain _ _ _ _ HI i)) as [H' [R [RL [R1 R2]]]].
    exists (upd hs i None), H', (set C i []). split; [cbn [act]; unfold seq; rewrite R; reflexivity|]. constructor; [rewrite !upd_length; apply HI| | | |].
    + intros k. unfold set. rewrite nth_upd. destruct (Nat.eqb_spec k i) as [->|Hk]; cbn [andb].
      * destruct (Nat.ltb_spec i (length hs)); [constructor|]. rewrite nth_overflow by auto. constructor.
      * eapply chain_same; [apply HI|]. intros a Ha. apply R2. intros K. apply Hk. apply (i_apart _ _ _ _ HI k i a); auto.
    + intros k. unfold set. rewrite nth_upd. destruct (Nat.eqb_spec k i) as [->|Hk]; cbn [andb]; [|apply HI].
      destruct (Nat.ltb_spec i (length ls)); auto. rewrite nth_overflow by auto. auto.
    + intros k k' x. unfold set. destruct (Nat.eqb_spec k i) as [->|Hk]; [contradiction|]. destruct (Nat.eqb_spec k' i) as [->|Hk']; [contradiction|]. apply (i_apart _ _ _ _ HI).
    + intros x [b Hb]. assert (NI : ~ In x (map fst (C i))) by (intros K; apply R1 in K; congruence). rewrite R2 in Hb by auto.
      destruct (i_only _ _ _ _ HI x (ex_intro _ b Hb)) as [k Hk]. exists k. unfold set. destruct (Nat.eqb_spec k i) as [->|]; [contradiction|auto].
Qed.

Lemma acts_inv : forall xs H hs ls C ls', inv H hs ls C -> expects ls xs = Some ls' -> exists hs' H' C', acts hs xs H = Done hs' H' /\ inv H' hs' ls' C'.
Proof.
  induction xs as [|x xs IH]; intros H hs ls C ls' HI HE; cbn [expects acts] in *.
  - apply some_inj in HE. subst. exists hs, H, C. auto.
  - destruct (expect ls x) as [l1|] eqn:E; [|discriminate]. destruct (act_inv _ _ _ _ _ _ HI E) as [hs1 [H1 [C1 [A1 I1]]]].
    destruct (IH _ _ _ _ _ I1 HE) as [hs2 [H2 [C2 [A2 I2]]]]. exists hs2, H2, C2. unfold seq. rewrite A1. auto.
Qed.

Lemma inv_start : inv [] [] [] (fun _ => []).
Proof.
  constructor; [reflexivity| | | |].
  - intros [|k]; constructor.
  - intros [|k]; reflexivity.
  - intros k k' a [].
  - intros a [b Hb]. destruct a; discriminate.
Qed.

Lemma history : forall xs ls, expects [] xs = Some ls -> exists hs H, acts [] xs [] = Done hs H /\ Forall2 (has H) hs ls /\ only H hs.
Proof.
  intros xs ls HE. destruct (acts_inv _ _ _ _ _ _ inv_start HE) as [hs [H [C [A HI]]]]. exists hs, H. split; auto. split.
  - assert (K : forall hs ls, length hs = length ls -> (forall k, (k < length hs)%nat -> has H (nth k hs None) (nth k ls None)) -> Forall2 (has H) hs ls).
    { clear. induction hs as [|p hs IH]; intros [|l ls] L Hk; try discriminate; constructor; [apply (Hk 0%nat); cbn; lia|]. apply IH; [cbn in L; lia|]. intros k Hlt. apply (Hk (S k)). cbn. lia. }
    apply K; [apply HI|]. intros k _. pose proof (i_chain _ _ _ _ HI k) as Hc. pose proof (i_data _ _ _ _ HI k) as Hd. unfold has.
    destruct (nth k ls None) as [l|].
    + destruct Hd as [Hne Hd]. destruct (some_head _ _ _ Hc Hne) as [a Ea]. rewrite Ea in *. eauto.
    + rewrite Hd in Hc. inversion Hc. auto.
  - intros a Ha. destruct (i_only _ _ _ _ HI a Ha) as [k Hk]. exists (nth k hs None), (C k). split; [|split; [apply HI|auto]].
    destruct (Nat.ltb_spec k (length hs)) as [Hlt|Hge]; [apply nth_In; auto|]. rewrite (inv_beyond _ _ _ _ _ HI Hge) in Hk. contradiction.
Qed.

Lemma history_freed : forall xs ls, expects [] xs = Some ls -> Forall (fun l => l = None) ls -> exists hs H, acts [] xs [] = Done hs H /\ forall a, ~ used H a.
Proof.
  intros xs ls HE HF. destruct (history _ _ HE) as [hs [H [A [H2 HO]]]]. exists hs, H. split; auto. intros a Ha. destruct (HO a Ha) as [p [c [Hp [Hc Hin]]]].
  assert (p = None). { clear - H2 HF Hp. induction H2 as [|q l hs ls Hq H2 IH]; [contradiction|]. destruct Hp as [->|Hp]; [|apply IH; auto; apply (Forall_inv_tail HF)]. pose proof (Forall_inv HF). cbn in H0. subst l. destruct p; auto; contradiction. }
  subst p. inversion Hc; subst. contradiction.
Qed.

(** *** A list behind itself *)
Lemma closed_endless : forall (S : addr -> Prop) H, (forall a, S a -> exists b d, nth_error H a = Some (Used (Element (MkElem (Some b) d))) /\ S b) ->
  forall n a, S a -> ble_tail_ n (Some a) H = Stop Endless /\ ble_free_ n (Some a) H = Stop Endless.
Proof.
  intros S H HS. induction n as [|n IH]; intros a Ha; [split; reflexivity|]. destruct (HS a Ha) as [b [d [E Hb]]]. destruct (IH b Hb) as [I1 I2].
  split; cbn [ble_tail_ ble_free_]; unfold seq, load_elem, load, seq, pure; rewrite E; cbn [e_next]; [exact I1|]. rewrite I2. reflexivity.
Qed.

Lemma chain_next : forall c p H a0 d0, chain H p (c ++ [(a0, d0)]) -> forall a, In a (map fst c) -> exists b d, nth_error H a = Some (Used (Element (MkElem (Some b) d))) /\ In b (map fst (c ++ [(a0, d0)])).
Proof.
  induction c as [|[x y] c IH]; intros p H a0 d0 HC a Ha; [contradiction|]. cbn [app] in HC. inversion HC as [|x' nx dx cx E HC']; subst. destruct Ha as [<-|Ha].
  - cbn [fst]. destruct nx as [b|]; [|inversion HC' as [K|]; destruct c; discriminate]. exists b, y. split; auto. cbn [app map]. right.
    inversion HC' as [|b' n' d' c' E' K']; subst. try rewrite <- H1. left. auto.
  - destruct (IH _ _ _ _ HC' a Ha) as [b [d [E1 E2]]]. exists b, d. split; auto. right. auto.
Qed.

Lemma self_join : forall H a c, chain H (Some a) c -> exists H', ble_append (Some a) (Some a) H = Done (Some a) H' /\
  ble_tail (Some a) H' = Stop Endless /\ ble_free (Some a) H' = Stop Endless.
Proof.
  intros H a c HC. assert (Hne : c <> []) by (intros ->; inversion HC). destruct (last_of c Hne) as [c0 [z [d ->]]].
  eexists. split; [exact (append_done _ _ _ _ _ (Some a) HC)|].
  assert (K : forall n, ble_tail_ n (Some a) (upd H z (Used (Element (MkElem (Some a) d)))) = Stop Endless /\ ble_free_ n (Some a) (upd H z (Used (Element (MkElem (Some a) d)))) = Stop Endless).
  { assert (Ia : In a (map fst (c0 ++ [(z, d)]))). { inversion HC as [|a' n' d' c' E' K']; subst. left. auto. }
    intros n. apply closed_endless with (S := fun x => In x (map fst (c0 ++ [(z, d)]))); [|exact Ia].
    intros x Hx. rewrite map_app in Hx. apply in_app_or in Hx. destruct (Nat.eqb_spec x z) as [->|Hz].
    - exists a, d. split; [eapply nth_error_here; eapply chain_last; eauto|auto].
    - destruct Hx as [Hx|[<-|[]]]; [|contradiction]. destruct (chain_next _ _ _ _ _ HC x Hx) as [b [e [E1 E2]]]. exists b, e. rewrite nth_error_else by auto. auto. }
  split; apply K.
Qed.

(** *** Buffers *)
Lemma equal_bytes : forall a b : buf, length a = length b -> (forallb (fun xy => fst xy =? snd xy) (combine a b) = true <-> a = b).
Proof.
  induction a as [|x a IH]; intros [|y b] L; try discriminate; [tauto|]. cbn [combine forallb fst snd]. rewrite andb_true_iff, (IH b) by (cbn in L; lia). split.
  - intros [E ->]. f_equal. lia.
  - intros E. injection E as -> ->. split; auto. lia.
Qed.

Lemma bequal_is : forall H p q a b, holds H p a -> holds H q b -> exists r, bequal p q H = Done r H /\ (r = true <-> a = b).
Proof.
  intros H p q a b Hp Hq. destruct p as [p|], a as [a|]; try contradiction; destruct q as [q|], b as [b|]; try contradiction; cbn [holds] in *; unfold bequal, pure; try (eexists; split; [reflexivity|]; split; congruence).
  unfold seq, load_buf, load, seq, pure. rewrite Hp, Hq. destruct (Nat.eqb_spec (length a) (length b)) as [L|L]; cbn [negb]; eexists; (split; [reflexivity|]).
  - rewrite (equal_bytes a b L). split; congruence.
  - split; [discriminate|]. intros K. injection K as ->. congruence.
Qed.

Lemma bclone_is : forall H p b, holds H p (Some b) -> bclone false p H = Done None H /\
  exists q, bclone true p H = Done (Some q) (H ++ [Used (Buffer b)]) /\ q = length H.
Proof.
  intros H [p|] b Hp; [|contradiction]. cbn [holds] in Hp. unfold bclone, seq, load_buf, load, seq, pure. rewrite Hp. cbn [balloc]. split; [reflexivity|].
  eexists. split; [|reflexivity]. unfold seq, calloc, pure, store. rewrite nth_error_new, upd_new. reflexivity.
Qed.

Lemma bprintf_is : forall H t, bprintf false t H = Done None H /\ bprintf true t H = Done (Some (length H)) (H ++ [Used (Buffer (t ++ [0]))]).
Proof.
  intros H t. split; [reflexivity|]. unfold bprintf, seq, balloc, seq, calloc, pure, load_buf, load, seq, store, pure. rewrite nth_error_new, nth_error_new, upd_new. rewrite repeat_length.
  replace (length t + 1)%nat with (S (length t)) by lia. cbn [vsnprintf]. rewrite Nat.min_id, firstn_all. rewrite skipn_all2 by (rewrite repeat_length; lia). reflexivity.
Qed.

(** *** Text *)
Lemma check_stops : forall l H l' H', bl_check true l H <> Done l' H'.
Proof.
  intros l H l' H' E. unfold bl_check, seq, assert in E. repeat match type of E with context [match ?x with _ => _ end] => destruct x eqn:?; try discriminate end; cbn in E; discriminate.
Qed.

Lemma append_stops : forall ok l t H, exists s, bl_printf_append true ok l t H = Stop s.
Proof.
  intros ok l t H. unfold bl_printf_append, seq. destruct (bl_check true l H) as [u H'|s] eqn:E; [exfalso; eapply check_stops; eauto|eauto].
Qed.

Lemma sum_walk : forall H p c n, chain H p c -> (length c <= n)%nat -> sum_sizes n p H = Done (zlen (concat (map snd c))) H.
Proof.
  intros H p c n HC. revert n. induction HC as [|a nx d c E HC IH]; intros n Hn; [destruct n; reflexivity|]. destruct n as [|n]; [cbn in Hn; lia|]. cbn [sum_sizes].
  unfold seq, load_elem, load, seq, pure. rewrite E. cbn [e_next e_data]. rewrite IH by (cbn in Hn; lia). cbn [map snd concat]. unfold zlen. rewrite app_length, Nat2Z.inj_add. reflexivity.
Qed.

Lemma check_off : forall l H c, chain H (l_head l) c -> bl_check false l H = Done tt H.
Proof.
  intros l H c HC. unfold bl_check, seq, assert. cbn [andb]. unfold pure. rewrite (sum_walk _ _ _ _ HC) by (pose proof (chain_short _ _ _ HC); lia). reflexivity.
Qed.

Lemma append_lost : forall l t H c, chain H (l_head l) c -> l_size l = l_cap l -> t <> [] -> zlen t < 2 ^ 31 ->
  exists l' d, bl_printf_append false true l t H = Done (zlen t, l') (H ++ [Used (Element (MkElem None d))]) /\
    l_head l' = l_head l /\ l_size l' = l_size l + zlen t /\ l_cap l' = l_cap l + Z.max 4096 (zlen t) /\ chain (H ++ [Used (Element (MkElem None d))]) (l_head l') c /\ ~ In (length H) (map fst c).
Proof.
  intros l t H c HC HE Ht Hl. unfold bl_printf_append. unfold seq at 1. rewrite (check_off _ _ _ HC). rewrite HE, Z.sub_diag. change (0 mod 2 ^ 64) with 0. cbn [Z.eqb]. unfold seq at 1, pure at 1.
  assert (0 < zlen t) by (destruct t; [congruence|]; unfold zlen; cbn [length]; lia).
  replace (2 ^ 31 <=? zlen t) with false by lia. replace (zlen t <=? 0) with false by lia. cbn [ble_alloc]. unfold seq at 1. unfold seq at 1. unfold calloc, pure at 1. unfold seq at 1. unfold load_elem, load, seq at 1. rewrite nth_error_new. unfold pure at 1.
  unfold seq at 1. unfold store. rewrite nth_error_new, upd_new. cbn [e_data].
  set (d := vsnprintf _ _ _). assert (CN : chain (H ++ [Used (Element (MkElem None d))]) (l_head l) c).
  { eapply chain_same; [exact HC|]. intros a Ha. destruct (chain_used _ _ _ _ HC Ha) as [e Ee]. rewrite Ee. apply nth_error_old. auto. }
  unfold seq. erewrite check_off by (cbn [l_head]; exact CN). do 2 eexists. split; [reflexivity|]. cbn [l_head l_size l_cap]. split; [auto|]. split; [lia|]. split; [lia|]. split; [exact CN|].
  intros K. pose proof (chain_lt _ _ _ _ HC K). lia.
Qed.

(** After the first text into an empty list no second one is possible. *)
Lemma append_twice : forall t u H, t <> [] -> zlen t < 4096 -> exists l H', bl_printf_append false true (MkList 0 0 None) t H = Done (zlen t, l) H' /\
  bl_printf_append false true l u H' = Stop Null_pointer.
Proof.
  intros t u H Ht Hl. assert (0 < zlen t) by (destruct t; [congruence|]; unfold zlen; cbn [length]; lia).
  destruct (append_lost (MkList 0 0 None) t H [] (Chain_end H) eq_refl Ht ltac:(lia)) as [l [d [E [E1 [E2 [E3 [CN _]]]]]]]. exists l. eexists. split; [exact E|].
  unfold bl_printf_append. unfold seq at 1. rewrite (check_off _ _ _ CN). cbn [l_head l_size l_cap] in *. rewrite E1, E2, E3.
  replace ((0 + Z.max 4096 (zlen t) - (0 + zlen t)) mod 2 ^ 64 =? 0) with false by (rewrite Z.mod_small; lia). reflexivity.
Qed.

Lemma vsnprintf_fits : forall n t old, (length t < n)%nat -> vsnprintf n t old = t ++ 0 :: skipn (S (length t)) old.
Proof. intros [|m] t old Hn; [lia|]. cbn [vsnprintf]. rewrite Nat.min_r by lia. rewrite firstn_all. reflexivity. Qed.

Lemma append_fits : forall on ok l s t H, on = false -> has_text H l s -> room H l (zlen t + 1) -> l_cap l < 2 ^ 31 -> exists l' H', bl_printf_append on ok l t H = Done (zlen t, l') H' /\ has_text H' l' (s ++ t) /\ l_cap l' = l_cap l.
Proof.
  intros on ok l s t H -> [c' [HC' [HZ [HS HT]]]] [c [a [d [HC [HR1 HR2]]]]] HL. pose proof (chain_fun _ _ _ HC _ HC') as <-. clear HC'.
  assert (H0 : 0 <= zlen t) by (unfold zlen; lia).
  unfold bl_printf_append. unfold seq at 1. rewrite (check_off _ _ _ HC). rewrite (Z.mod_small (l_cap l - l_size l)) by lia. replace (l_cap l - l_size l =? 0) with false by lia.
  unfold seq at 1. unfold seq at 1. rewrite (tail_of _ _ _ _ _ HC). unfold seq at 1. unfold load_elem, load, seq at 1, pure at 1. pose proof (chain_last _ _ _ _ _ HC) as HLa. rewrite HLa. cbn [e_data e_next].
  replace (zlen d - (l_cap l - l_size l) <? 0) with false by lia. unfold seq at 1. unfold store. rewrite HLa. unfold pure at 1.
  set (i := Z.to_nat (zlen d - (l_cap l - l_size l))). rewrite vsnprintf_fits by (unfold zlen in *; lia).
  set (d' := firstn i d ++ t ++ 0 :: skipn (S (length t)) (skipn i d)).
  replace (2 ^ 31 <=? zlen t) with false by lia. replace (zlen t <=? l_cap l - l_size l) with true by lia.
  assert (HL' : length d' = length d). { unfold d'. rewrite !app_length. cbn [length]. rewrite firstn_length, !skipn_length. unfold i, zlen in *. lia. }
  assert (CN : chain (upd H a (Used (Element (MkElem None d')))) (l_head l) (c ++ [(a, d')])).
  { clear - HC. revert HC. generalize (l_head l). intros p HC. pose proof (chain_nodup _ _ _ HC) as ND. rewrite map_app in ND. cbn [map fst] in ND. apply NoDup_remove_2 in ND. rewrite app_nil_r in ND. revert p HC ND.
    induction c as [|[x y] c IH]; intros p HC ND; cbn [app] in *; inversion HC as [|x' nx dx cx E HC' EP]; subst.
    - econstructor; [eapply nth_error_here; eauto|constructor].
    - cbn [map fst In] in ND. econstructor; [rewrite nth_error_else by tauto; exact E|]. apply IH; auto. }
  unfold seq. erewrite check_off by (cbn [l_head]; exact CN). do 2 eexists. split; [reflexivity|]. cbn [l_cap]. split; [|auto]. exists (c ++ [(a, d')]). cbn [l_head l_cap l_size].
  rewrite !map_app, !concat_app in *. cbn [map snd concat] in *. rewrite !app_nil_r in *. split; [exact CN|]. split; [unfold zlen in *; rewrite app_length in *; lia|]. split; [lia|].
  set (A := concat (map snd c)) in *. assert (LA : (Z.to_nat (l_size l) = length A + i)%nat) by (unfold i, zlen in *; rewrite app_length in HZ; lia).
  rewrite <- HT, LA. replace (Z.to_nat (l_size l + zlen t)) with (length A + (i + length t))%nat by (unfold zlen in *; lia). rewrite !firstn_app_2. rewrite <- app_assoc. f_equal. unfold d'.
  assert (LI : length (firstn i d) = i) by (rewrite firstn_length; unfold i, zlen in *; lia). rewrite <- LI at 1. rewrite firstn_app_2. f_equal. rewrite firstn_app, Nat.sub_diag. cbn [firstn]. rewrite app_nil_r. apply firstn_all.
Qed.

(** *** As the properties have it *)
Lemma calls : forall H p c a d, chain H p (c ++ [(a, d)]) ->
  ble_tail p H = Done (Some a) H /\
  (forall e c', chain H e c' -> (forall x, In x (map fst c') -> ~ In x (map fst (c ++ [(a, d)]))) ->
     exists H', ble_append p e H = Done e H' /\ chain H' p (c ++ (a, d) :: c') /\ forall x, x <> a -> nth_error H' x = nth_error H x) /\
  exists H', ble_free p H = Done tt H' /\ (forall x, In x (map fst (c ++ [(a, d)])) -> nth_error H' x = Some Freed) /\
    forall x, ~ In x (map fst (c ++ [(a, d)])) -> nth_error H' x = nth_error H x.
Proof.
  intros H p c a d HC. split; [eapply tail_of; eauto|]. split.
  - intros e c' HE HN. eexists. split; [exact (append_done _ _ _ _ _ e HC)|]. split; [|intros; apply nth_error_else; auto].
    eapply chain_join; [exact HC| |eapply nth_error_here; eapply chain_last; exact HC|].
    + eapply chain_same; [exact HE|]. intros x Hx. apply nth_error_else. intros ->. apply (HN a Hx). rewrite map_app. apply in_or_app. right. left. auto.
    + intros b Hb. apply nth_error_else. intros ->. pose proof (chain_nodup _ _ _ HC) as ND. rewrite map_app in ND. cbn [map fst] in ND. apply NoDup_remove_2 in ND. rewrite app_nil_r in ND. contradiction.
  - destruct (free_done _ _ _ HC) as [H' [R [_ [R1 R2]]]]. eauto.
Qed.

Lemma init_stops : forall n m a H, ~ used H a -> exists s, bl_init (MkList n m (Some a)) H = Stop s.
Proof.
  intros n m a H HU. unfold bl_init, bl_reset, seq. cbn [l_head]. unfold ble_free. destruct (length H) as [|k] eqn:E; [eexists; reflexivity|]. cbn [ble_free_]. unfold seq, load_elem, load, seq.
  destruct (nth_error H a) as [[b|]|] eqn:Ea; [exfalso; apply HU; exists b; auto| |]; eexists; reflexivity.
Qed.

Lemma not_used : forall H, ~ used H (length H).
Proof. intros H [b Hb]. assert (length H < length H)%nat by (apply nth_error_Some; congruence). lia. Qed.

Lemma new_else : forall (H : heap) x a, a <> length H -> nth_error (H ++ [x]) a = nth_error H a.
Proof.
  intros H x a Ha. destruct (Nat.ltb_spec a (length H)); [apply nth_error_app1; auto|]. rewrite nth_error_app2 by auto.
  destruct (a - length H)%nat as [|k] eqn:E; [lia|]. rewrite (proj2 (nth_error_None H a)) by auto. destruct k; reflexivity.
Qed.

Lemma bclone_new : forall H p b, holds H p (Some b) -> bclone false p H = Done None H /\
  exists q H', bclone true p H = Done (Some q) H' /\ holds H' (Some q) (Some b) /\ ~ used H q /\ forall a, a <> q -> nth_error H' a = nth_error H a.
Proof.
  intros H p b Hp. destruct (bclone_is H p b Hp) as [E1 [q [E2 ->]]]. split; [exact E1|]. do 2 eexists. split; [exact E2|]. split; [apply nth_error_new|]. split; [apply not_used|]. intros. apply new_else. auto.
Qed.

Lemma bprintf_new : forall H t, bprintf false t H = Done None H /\
  exists q H', bprintf true t H = Done (Some q) H' /\ holds H' (Some q) (Some (t ++ [0])) /\ ~ used H q /\ forall a, a <> q -> nth_error H' a = nth_error H a.
Proof.
  intros H t. destruct (bprintf_is H t) as [E1 E2]. split; [exact E1|]. do 2 eexists. split; [exact E2|]. split; [apply nth_error_new|]. split; [apply not_used|]. intros. apply new_else. auto.
Qed.

Lemma balloc_new : forall H n, balloc false n H = Done None H /\
  exists q H', balloc true n H = Done (Some q) H' /\ holds H' (Some q) (Some (repeat 0 n)) /\ ~ used H q /\ (forall a, a <> q -> nth_error H' a = nth_error H a) /\
  exists H'', bfree (Some q) H' = Done tt H'' /\ forall a, used H'' a <-> used H a.
Proof.
  intros H n. split; [reflexivity|]. do 2 eexists. split; [reflexivity|]. split; [apply nth_error_new|]. split; [apply not_used|]. split; [intros; apply new_else; auto|].
  exists (H ++ [Freed]). split; [unfold bfree, free; rewrite nth_error_new, upd_new; reflexivity|]. intros a. unfold used. destruct (Nat.eqb_spec a (length H)) as [->|Ha].
  - rewrite nth_error_new. split; [intros [b Hb]; discriminate|intros K; exfalso; apply (not_used H K)].
  - rewrite new_else by auto. reflexivity.
Qed.

(** Properties C79-C81: lists of buffers, text in them, and buffers, as the library offers
    them.  Vocabulary: SpecList.v. *)

From Verif Require Import SpecList PList.
Local Open Scope Z_scope.

(** ** C79 *)

(** However a program makes, extends, joins and frees lists, with or without memory for
    them: every call returns, the lists have the elements they should have in the order
    they were given, and nothing else is in use. *)
Theorem C79_history : forall xs ls, expects [] xs = Some ls ->
  exists hs H, acts [] xs [] = Done hs H /\ Forall2 (has H) hs ls /\ only H hs.
Proof. exact history. Qed.
Print Assumptions C79_history.

(** When all lists are freed, no memory is in use. *)
Theorem C79_freed : forall xs ls, expects [] xs = Some ls -> Forall (fun l => l = None) ls ->
  exists hs H, acts [] xs [] = Done hs H /\ forall a, ~ used H a.
Proof. exact history_freed. Qed.
Print Assumptions C79_freed.

(** The single calls, on any heap: the last element is found, a list is put behind it, and
    freeing frees each element once and nothing else. *)
Theorem C79_calls : forall H p c a d, chain H p (c ++ [(a, d)]) ->
  ble_tail p H = Done (Some a) H /\
  (forall e c', chain H e c' -> (forall x, In x (map fst c') -> ~ In x (map fst (c ++ [(a, d)]))) ->
     exists H', ble_append p e H = Done e H' /\ chain H' p (c ++ (a, d) :: c') /\ forall x, x <> a -> nth_error H' x = nth_error H x) /\
  exists H', ble_free p H = Done tt H' /\ (forall x, In x (map fst (c ++ [(a, d)])) -> nth_error H' x = Some Freed) /\
    forall x, ~ In x (map fst (c ++ [(a, d)])) -> nth_error H' x = nth_error H x.
Proof. exact calls. Qed.
Print Assumptions C79_calls.

(** A list behind itself is one without end: the next call never returns. *)
Theorem C79_self : forall H a c, chain H (Some a) c -> exists H', ble_append (Some a) (Some a) H = Done (Some a) H' /\
  ble_tail (Some a) H' = Stop Endless /\ ble_free (Some a) H' = Stop Endless.
Proof. exact self_join. Qed.
Print Assumptions C79_self.

Definition C79_actions : list action :=
  [New true [1; 2]; New false [9]; New true [3]; Add true 0 [4; 5]; Add false 0 [6]; Join 2 0; Add true 2 []; New true []; Drop 3].

Example C79_case : expects [] C79_actions = Some [None; None; Some [[3]; [1; 2]; [4; 5]; []]; None] /\
  expects [] (C79_actions ++ [Drop 2]) = Some [None; None; None; None] /\
  exists hs H, acts [] C79_actions [] = Done hs H /\ chain H (nth 2 hs None) ([(1%nat, [3]); (0%nat, [1; 2]); (3%nat, [4; 5])] ++ [(6%nat, [])]).
Proof.
  split; [reflexivity|]. split; [reflexivity|]. do 2 eexists. split; [vm_compute; reflexivity|]. cbn [app nth].
  econstructor; [reflexivity|]. econstructor; [reflexivity|]. econstructor; [reflexivity|]. econstructor; [reflexivity|]. constructor.
Qed.

(** ** C80 *)

(** Text for which there is room (with the zero behind it) is behind the text of the list.
    Missing: text for which there is no room, and the library as it is compiled by
    default, with assertions ([on] = true); see below. *)
Theorem C80_room_partial : forall on ok l s t H, on = false -> has_text H l s -> room H l (zlen t + 1) -> l_cap l < 2 ^ 31 ->
  exists l' H', bl_printf_append on ok l t H = Done (zlen t, l') H' /\ has_text H' l' (s ++ t) /\ l_cap l' = l_cap l.
Proof. exact append_fits. Qed.
Print Assumptions C80_room_partial.

Example C80_case : let H := [Used (Element (MkElem (Some 1%nat) [65; 66])); Used (Element (MkElem None [67; 0; 0; 0; 0]))] in
  has_text H (MkList 3 7 (Some 0%nat)) [65; 66; 67] /\ room H (MkList 3 7 (Some 0%nat)) (zlen [68; 69; 70] + 1).
Proof.
  split.
  - exists [(0%nat, [65; 66]); (1%nat, [67; 0; 0; 0; 0])]. split; [|vm_compute; intuition congruence]. econstructor; [reflexivity|]. econstructor; [reflexivity|]. constructor.
  - exists [(0%nat, [65; 66])], 1%nat, [67; 0; 0; 0; 0]. split; [|vm_compute; intuition congruence]. econstructor; [reflexivity|]. econstructor; [reflexivity|]. constructor.
Qed.

(** With assertions no call returns, whatever the list and the text. *)
Theorem C80_assert_refuted : forall ok l t H, exists s, bl_printf_append true ok l t H = Stop s.
Proof. exact append_stops. Qed.
Print Assumptions C80_assert_refuted.

(** Without them, text for which the list has no room at all is lost: the call returns its
    length, the elements of the list are as before, and a block is left over. *)
Theorem C80_lost_refuted : forall l t H c, chain H (l_head l) c -> l_size l = l_cap l -> t <> [] -> zlen t < 2 ^ 31 ->
  exists l' d, let H' := H ++ [Used (Element (MkElem None d))] in
    bl_printf_append false true l t H = Done (zlen t, l') H' /\
    l_head l' = l_head l /\ l_size l' = l_size l + zlen t /\ l_cap l' = l_cap l + Z.max 4096 (zlen t) /\ chain H' (l_head l') c /\ ~ In (length H) (map fst c).
Proof. exact append_lost. Qed.
Print Assumptions C80_lost_refuted.

(** So it is with the first text of an empty list; the second one goes through a NULL pointer. *)
Theorem C80_twice_refuted : forall t u H, t <> [] -> zlen t < 4096 ->
  exists l H', bl_printf_append false true (MkList 0 0 None) t H = Done (zlen t, l) H' /\ bl_printf_append false true l u H' = Stop Null_pointer.
Proof. exact append_twice. Qed.
Print Assumptions C80_twice_refuted.

(** The last character of text that exactly fills the list is lost. *)
Theorem C80_full_refuted : exists l H l' H', has_text H l [65] /\ room H l (zlen [66; 67]) /\
  bl_printf_append false true l [66; 67] H = Done (2, l') H' /\ has_text H' l' [65; 66; 0].
Proof.
  exists (MkList 1 3 (Some 0%nat)), [Used (Element (MkElem None [65; 0; 0]))], (MkList 3 3 (Some 0%nat)), [Used (Element (MkElem None [65; 66; 0]))].
  split; [exists [(0%nat, [65; 0; 0])]; split; [econstructor; [reflexivity|constructor]|vm_compute; intuition congruence]|].
  split; [exists [], 0%nat, [65; 0; 0]; split; [econstructor; [reflexivity|constructor]|vm_compute; intuition congruence]|].
  split; [vm_compute; reflexivity|]. exists [(0%nat, [65; 66; 0])]. split; [econstructor; [reflexivity|constructor]|vm_compute; intuition congruence].
Qed.
Print Assumptions C80_full_refuted.

(** [bl_init] frees whatever the memory happens to hold that it is to initialise. *)
Theorem C80_init_refuted : forall n m a H, ~ used H a -> exists s, bl_init (MkList n m (Some a)) H = Stop s.
Proof. exact init_stops. Qed.
Print Assumptions C80_init_refuted.

(** ** C81 *)

(** Buffers are equal if and only if both are NULL or both hold the same bytes. *)
Theorem C81_equal : forall H p q a b, holds H p a -> holds H q b -> exists r, bequal p q H = Done r H /\ (r = true <-> a = b).
Proof. exact bequal_is. Qed.
Print Assumptions C81_equal.

(** A copy is a new block with the same bytes; nothing else changes.  Without memory it is
    NULL, and nothing changes. *)
Theorem C81_copy : forall H p b, holds H p (Some b) -> bclone false p H = Done None H /\
  exists q H', bclone true p H = Done (Some q) H' /\ holds H' (Some q) (Some b) /\ ~ used H q /\ forall a, a <> q -> nth_error H' a = nth_error H a.
Proof. exact bclone_new. Qed.
Print Assumptions C81_copy.

(** A printed buffer holds the text and a zero. *)
Theorem C81_print : forall H t, bprintf false t H = Done None H /\
  exists q H', bprintf true t H = Done (Some q) H' /\ holds H' (Some q) (Some (t ++ [0])) /\ ~ used H q /\ forall a, a <> q -> nth_error H' a = nth_error H a.
Proof. exact bprintf_new. Qed.
Print Assumptions C81_print.

(** A fresh buffer holds zeros, and a buffer that is freed is freed alone. *)
Theorem C81_alloc : forall H n, balloc false n H = Done None H /\
  exists q H', balloc true n H = Done (Some q) H' /\ holds H' (Some q) (Some (repeat 0 n)) /\ ~ used H q /\ (forall a, a <> q -> nth_error H' a = nth_error H a) /\
  exists H'', bfree (Some q) H' = Done tt H'' /\ forall a, used H'' a <-> used H a.
Proof. exact balloc_new. Qed.
Print Assumptions C81_alloc.

Example C81_case : let H := [Used (Buffer [1; 2]); Freed; Used (Buffer [1; 2]); Used (Buffer [1; 3])] in
  holds H (Some 0%nat) (Some [1; 2]) /\ holds H (Some 2%nat) (Some [1; 2]) /\ holds H None None /\
  bequal (Some 0%nat) (Some 2%nat) H = Done true H /\ bequal (Some 0%nat) (Some 3%nat) H = Done false H /\ bequal None (Some 3%nat) H = Done false H.
Proof. vm_compute. tauto. Qed.

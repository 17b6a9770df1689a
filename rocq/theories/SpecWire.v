(** Tests written in words (SpecTest.v) and what arrives at the interfaces (SpecSockets.v): C94. *)

From Coq Require Import Permutation.
From Verif Require Export SpecTest SpecProgress.

(** The frames that arrived at an interface, as they were on the wire. *)
Definition on_wire (ix : Z) (since : list happening) : list (list Z) := map (fun a => put_tag (snd a)) (arrivals_at ix since).

(** Frames of ordinary size. *)
Definition sized (m : rxmsg) : Prop := ordinary m /\ Forall is_byte (rx_data m).

(** These frames are the expected ones, in any order. *)
Definition as_expected (ifn : string) (T : list SpecTest.step) (bs : list (list Z)) : Prop :=
  exists W, Permutation (to_expect ifn T) W /\ Forall2 meets W bs.

(** All interfaces that are listened to were in use, everything that arrived there was
    read, and it is what was expected. *)
Definition all_as_expected (T : list SpecTest.step) (tr : list happening) : Prop :=
  forall i ifn, nth_error (used T) i = Some ifn -> listening ifn T ->
    exists ix since, listens i ix tr since /\ length (taken i tr) = length (on_wire ix since) /\ as_expected ifn T (on_wire ix since).

(** The same without the last: no matter what it is. *)
Definition all_read (T : list SpecTest.step) (tr : list happening) : Prop :=
  forall i ifn, nth_error (used T) i = Some ifn -> listening ifn T -> exists ix since, listens i ix tr since /\ length (taken i tr) = length (on_wire ix since).

(** These and no other frames arrived at the interfaces that are listened to, [F i] at the
    [i]th, and all were read. *)
Definition exactly_arrived (T : list SpecTest.step) (F : nat -> list rxmsg) (tr : list happening) : Prop :=
  forall i ifn, nth_error (used T) i = Some ifn -> listening ifn T ->
    exists ix since, listens i ix tr since /\ map snd (arrivals_at ix since) = F i /\ length (taken i tr) = length (F i).

(** Tests of a device that passes frames on (C96): what is sent on some interfaces is
    expected on others. *)

From Coq Require Import Permutation.
From Verif Require Export SpecTogether.

(** The frames that were sent on an interface. *)
Definition frames_sent (ifn : string) (ev : list event) : list (list Z) := map fst (filter snd (sends ifn ev)).

(** The frames to be sent on an interface, each as often as the words say. *)
Definition each (T : list SpecTest.step) (ifn : string) : list (list wish) := flat_map (fun p => repeat (fst p) (Z.to_nat (snd p))) (to_send ifn T).

(** On every interface that is listened to, the test expects exactly what it sends on the
    interfaces [src] tells, and no word asks to ignore anything.  With one interface in [src]
    it is the test of a cable; an interface may be in [src] of several others. *)
Record expects_back (src : string -> list string) (T : list SpecTest.step) : Prop := {
  eb_frames : forall b, listening b T -> Permutation (to_expect b T) (flat_map (each T) (src b));
  eb_sent : forall b a, listening b T -> In a (src b) -> sending a T;
  eb_strict : forall b ws, In ws (to_expect b T) -> strict ws }.

(** The program has sent all it was to send. *)
Definition finished (T : list SpecTest.step) (ev : list event) : Prop := forall a, sending a T -> length (sends a ev) = length (each T a).

(** The device passes on all that is sent, and nothing else, unchanged and in any order. *)
Definition passed_on (src : string -> list string) (b : string) (ev : list event) (arrive : list (list Z)) : Prop :=
  Permutation (flat_map (fun a => frames_sent a ev) (src b)) arrive.
Definition all_passed_on (src : string -> list string) (T : list SpecTest.step) (ev : list event) (tr : list Sockets.happening) : Prop :=
  forall i b, nth_error (used T) i = Some b -> listening b T ->
    exists ix since, listens i ix tr since /\ length (SpecSockets.taken i tr) = length (on_wire ix since) /\ passed_on src b ev (on_wire ix since).

(** The frames the test expects fit into the program's buffer, with room for a tag. *)
Definition fitting (T : list SpecTest.step) : Prop := forall b ws, In ws (to_expect b T) -> total (map plain ws) / 8 < 32764.

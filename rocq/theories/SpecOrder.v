(** The order of the commands of a test (C97). *)

From Coq Require Import Permutation.
From Verif Require Export SpecTogether.

(** The names that are defined; none of them twice. *)
Definition defined_names (T : list SpecTest.step) : list string := flat_map (fun x => match x with Define n _ => [n] | _ => [] end) T.

(** Two executions, of [T] and of [T']: the same frames arrive at each interface that is
    listened to, in any order. *)
Definition same_arrivals (T T' : list SpecTest.step) (tr tr' : list Sockets.happening) : Prop :=
  forall ifn i i' ix ix' since since', listening ifn T -> nth_error (used T) i = Some ifn -> nth_error (used T') i' = Some ifn -> listens i ix tr since -> listens i' ix' tr' since' ->
    Permutation (on_wire ix since) (on_wire ix' since').

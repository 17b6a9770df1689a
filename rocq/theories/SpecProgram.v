(** The program, from its arguments to its exit status, when the commands are a test in
    words (C90). *)

From Verif Require Import SpecMain SpecChildren.
From Verif Require Export SpecTest.

(** What has arrived and what is expected are fewer than 256 frames: the exit status
    cannot count further (C48). *)
Definition few (T : list SpecTest.step) (e : env) : Prop :=
  (length (flat_map (fun i => arrived i e) (seq 0 (length (used T)))) + length (flat_map (fun ifn => to_expect ifn T) (used T)) < 256)%nat.

(** The same world, but nothing comes after the first [k] rounds of listening. *)
Definition cut (k : nat) (e : env) : env := MkEnv (e_open e) (firstn k (e_rounds e)).

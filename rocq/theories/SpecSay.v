(** Command lines with options (C78). *)

From Verif Require Import Cmd.
From Verif Require Export SpecMain.

(** The words of the command line [args] that are not options are [ops]: options may stand
    between them, but not behind "--". *)
Definition operands (args ops : list string) : Prop :=
  exists ps rest, Forall part_ok ps /\ args = flat_map part_words ps ++ rest /\
  (rest = [] /\ ops = flat_map operand_of ps \/ exists ws, rest = "--"%string :: ws /\ ops = flat_map operand_of ps ++ ws).
